(** * ImportOptProps: C117, import and generate from their command lines to what they print. *)
From Verif Require Import Base Utf8 Regex DateModel BookModel BookOpModel OpsModel ScriptModel ExportModel ImportModel AccumModel CfgModel ConvertModel JsonModel ConfigModel
  OptionsModel OptionsSpec OptionsProofs OptionsProps ImportOptModel ImportOptSpec ImportOptProofs.

Lemma over_import d : over_ok (import_conf d).
Proof.
  apply over_step. intros k v c p Hk. destruct (field_path config_ty k) as [q|] eqn:Eq; [|congruence]. unfold import_conf, store_value. cbn [fst snd]. rewrite Eq. unfold set_field.
  destruct (path_eqb q p) eqn:E; [|reflexivity]. apply path_eqb_ok in E. subst q.
  assert (G : forall n, path_eqb p (own n) = false) by (intros n; apply path_eqb_neq; intros ->; exact (no_flag_field _ _ Eq)). rewrite !G. reflexivity.
Qed.
Lemma over_generate d : over_ok (generate_conf d).
Proof.
  apply over_step. intros k v c p Hk. destruct (field_path config_ty k) as [q|] eqn:Eq; [|congruence]. unfold generate_conf, store_value. cbn [fst snd]. rewrite Eq. unfold set_field.
  destruct (path_eqb q p) eqn:E; [|reflexivity]. apply path_eqb_ok in E. subst q.
  assert (G : forall n, path_eqb p (own n) = false) by (intros n; apply path_eqb_neq; intros ->; exact (no_flag_field _ _ Eq)). rewrite !G. reflexivity.
Qed.
Lemma link_import lang d : Forall2 (linked (import_conf d (builtin lang))) (app_flags ++ import_flags d) (common lang ++ import_options d).
Proof. destruct d as [[|t ty] ps [|x co] ac ca cc de re]; unfold import_flags, import_options; cbn [df_code df_type length Nat.eqb app app_flags common]; link. Qed.
Lemma link_generate lang d : Forall2 (linked (generate_conf d (builtin lang))) (app_flags ++ generate_flags d) (common lang ++ generate_options d).
Proof. destruct d as [[|x co] de]; unfold generate_flags, generate_options; cbn [gd_code length Nat.eqb app app_flags common]; link. Qed.
Lemma values_own fold parse_int start tab opts line file c' : Forall2 (linked start) tab opts -> NoDup (map f_name tab) ->
  (forall f o, In f tab -> linked start f o -> in_effect fold parse_int o line file (c' (f_field f))) -> values_of fold parse_int opts line file (val_in tab c').
Proof.
  intros Hlink Hn H. apply Forall_forall. intros o Ho.
  assert (exists f, In f tab /\ linked start f o) as (f & Hfin & Hlo). { clear - Hlink Ho. induction Hlink as [|f o' fs os' H _ IH]; [destruct Ho|]. destruct Ho as [->|Ho]; [exists f; split; [left; reflexivity|exact H]|]. destruct (IH Ho) as (g & Hg & Hlg). exists g. split; [right; exact Hg|exact Hlg]. }
  unfold val_in. assert (by_name tab (o_name o) = Some f) as -> by (apply by_name_ok; [exact Hn|]; split; [exact Hfin|exact (proj1 Hlo)]). exact (H f o Hfin Hlo).
Qed.
Lemma reader_outcome upper cfg : (exists r, import_reader upper cfg = Ok r) \/ import_reader upper cfg = Error.
Proof.
  unfold import_reader. destruct (str_eqb _ _); [auto|]. destruct (str_eqb _ _); [|destruct (str_eqb _ _); eauto]. cbv zeta. destruct (negb _); [auto|].
  unfold get_bool. repeat match goal with |- context [match ?x with _ => _ end] => destruct x end; cbn [obind]; eauto.
Qed.

Section Import.
  Variable fold : str -> str -> bool.
  Variable parse_int : str -> option Z.
  Variable srt : list posting -> list posting.
  Variable f64 : Qc -> Qc.
  Variable is_letter : Z -> bool.
  Variable today : Z.
  Variable set_string : str -> option Qc.
  Variable jw : str -> str -> Qc.
  Variable ord1 : nat -> str -> list (str * Z) -> list (str * Z).
  Variable ord2 : nat -> nat -> list (str * str) -> list (str * str).
  Variable upper : Z -> Z.
  Variable order : list (str * sval) -> list (str * sval).
  Variable interp : str -> sval -> str -> script.
  Variable content : str -> option str.
  Variable load : str -> outcome book.
  Variable lang : str.

  Lemma open_required d c' line c : apply_all fold parse_int (app_flags ++ import_flags d) line (import_conf d c) = Ok c' ->
    NoDup (map f_name (app_flags ++ import_flags d)) -> NoDup (map f_field (app_flags ++ import_flags d)) ->
    (existsb (open_flag c') [bs "code"; bs "format"; bs "acct"; bs "cacct"] = true <-> Exists (fun n => val_in (app_flags ++ import_flags d) c' n = VT) (required d)).
  Proof.
    intros Ha Hn Hf.
    assert (Hset : forall f, In f (app_flags ++ import_flags d) -> c' (f_field f) = VT -> import_conf d c (f_field f) = VT).
    { intros f Hin E. destruct (applied fold parse_int _ f Hn Hf Hin line _ c' Ha) as [(l1 & t & l2 & v & _ & _ & Hp & Hv)|[_ Hv]]; [|congruence]. exfalso. rewrite E in Hv. subst v.
      destruct (f_kind f); cbn [parse_value] in Hp; [discriminate|destruct (parse_bool t); discriminate|destruct (parse_int t); discriminate|destruct (enum_set fold valid t); discriminate|destruct (snd (cfg_set t)); discriminate]. }
    assert (Hoth : forall p, (forall f, In f (app_flags ++ import_flags d) -> f_field f <> p) -> c' p = import_conf d c p) by (intros p Hp; exact (applied_other fold parse_int _ p Hp line _ c' Ha)).
    assert (Hvt : forall n, open_flag c' n = true <-> c' (own n) = VT) by (intros n; unfold open_flag; destruct (c' (own n)); split; congruence).
    assert (Hcode : df_code d <> [] -> c' (own (bs "code")) <> VT).
    { intros Hne. rewrite Hoth; [destruct d as [ty ps [|x co] ac ca cc de re]; [contradiction|]; discriminate|].
      destruct d as [ty ps [|x co] ac ca cc de re]; [contradiction|]. intros f Hin E. unfold import_flags in Hin. cbn [df_code] in Hin. destruct ty; cbn in Hin; repeat (destruct Hin as [<-|Hin]; [discriminate E|]); contradiction. }
    assert (Hformat : df_type d <> [] -> c' (own (bs "format")) <> VT).
    { intros Hne. rewrite Hoth; [destruct d as [[|x ty] ps co ac ca cc de re]; [contradiction|]; discriminate|].
      destruct d as [[|x ty] ps co ac ca cc de re]; [contradiction|]. intros f Hin E. unfold import_flags in Hin. cbn [df_type] in Hin. destruct co; cbn in Hin; repeat (destruct Hin as [<-|Hin]; [discriminate E|]); contradiction. }
    assert (Hacct : df_account d <> [] -> c' (own (bs "acct")) <> VT).
    { intros Hne E. apply (Hset (mkFlag (bs "acct") (Some 97) (own (bs "acct")) FStr)) in E; [destruct d as [ty ps co [|x ac] ca cc de re]; [contradiction|discriminate]|].
      unfold import_flags. rewrite !in_app_iff. do 4 right. left. reflexivity. }
    assert (Hcacct : df_counter d <> [] -> c' (own (bs "cacct")) <> VT).
    { intros Hne E. apply (Hset (mkFlag (bs "cacct") (Some 99) (own (bs "cacct")) FStr)) in E; [destruct d as [ty ps co ac [|x ca] cc de re]; [contradiction|discriminate]|].
      unfold import_flags. rewrite !in_app_iff. do 4 right. right. left. reflexivity. }
    clear Hset Hoth Ha Hn Hf. rewrite existsb_exists, Exists_exists. split.
    - intros (n & Hin & E). apply Hvt in E. exists n.
      destruct d as [ty ps co ac ca cc de re]; cbn [df_code df_type df_account df_counter] in Hcode, Hformat, Hacct, Hcacct.
      cbn [In] in Hin. destruct Hin as [<-|[<-|[<-|[<-|[]]]]].
      + destruct co; [|exfalso; apply Hcode; [discriminate|exact E]]. split; [left; reflexivity|]. destruct ty; exact E.
      + destruct ty; [|exfalso; apply Hformat; [discriminate|exact E]]. split; [destruct co; [right; left; reflexivity|left; reflexivity]|]. destruct co; exact E.
      + destruct ac; [|exfalso; apply Hacct; [discriminate|exact E]]. split; [unfold required, open_ones; apply in_map_iff; exists (bs "acct", []); split; [reflexivity|]; apply filter_In; split; [right; right; left; reflexivity|reflexivity]|]. destruct co, ty; exact E.
      + destruct ca; [|exfalso; apply Hcacct; [discriminate|exact E]]. split; [unfold required, open_ones; apply in_map_iff; exists (bs "cacct", []); split; [reflexivity|]; apply filter_In; split; [right; right; right; left; reflexivity|reflexivity]|]. destruct co, ty; exact E.
    - intros (n & Hin & E). exists n. unfold required, open_ones in Hin. apply in_map_iff in Hin as ((n' & s) & <- & Hin). apply filter_In in Hin as [Hin Hs]. cbn [fst snd] in E, Hs |- *. rewrite Hvt. destruct s; [|discriminate Hs].
      destruct d as [ty ps co ac ca cc de re]; cbn [df_code df_type df_account df_counter In] in Hin. destruct Hin as [H|[H|[H|[H|[]]]]]; injection H as <- ->; (split; [cbn [In]; tauto|]).
      + destruct ty; exact E.
      + destruct co; exact E.
      + destruct co, ty; exact E.
      + destruct co, ty; exact E.
  Qed.

  Lemma letters_import d x : by_letter (app_flags ++ import_flags d) x = by_name (app_flags ++ import_flags d) (letter_of import_letters x).
  Proof.
    destruct d as [ty ps co ac ca cc de re]. unfold letter_of, by_letter, import_letters, common_letters, import_flags. cbn [df_code df_type app find fst snd app_flags f_short].
    destruct (108 =? x) eqn:E1; [reflexivity|]. destruct (104 =? x) eqn:E2; [reflexivity|]. destruct (100 =? x) eqn:E3; [reflexivity|]. destruct (114 =? x) eqn:E4; [reflexivity|].
    destruct co, ty; cbn [app find f_short]; (destruct (97 =? x) eqn:E5; [reflexivity|]; destruct (99 =? x) eqn:E6; reflexivity).
  Qed.
  Lemma nodup_import d : NoDup (map f_name (app_flags ++ import_flags d)) /\ NoDup (map f_field (app_flags ++ import_flags d)).
  Proof. destruct d as [[|t ty] ps [|x co] ac ca cc de re]; unfold import_flags; cbn [df_code df_type app app_flags]; split; distinct. Qed.

  (** ** C117. goledger import [name]. *)
  Theorem C117_import d line args first file c : written (is_switch (common lang ++ import_options d)) (letter_of import_letters) line args -> decode_config first file (builtin lang) = Ok c ->
    let run := import_main fold parse_int srt f64 is_letter today set_string jw ord1 ord2 upper order interp content load d c args in
    (~ Forall (usable fold parse_int (common lang ++ import_options d)) line -> run = Error) /\
    (Forall (usable fold parse_int (common lang ++ import_options d)) line -> exists v, values_of fold parse_int (common lang ++ import_options d) line file v /\
       (on (v (bs "help")) = true -> run = Ok None) /\
       (on (v (bs "help")) = false -> words line = [] \/ Exists (fun n => v n = VT) (required d) -> run = Error) /\
       (on (v (bs "help")) = false -> words line <> [] -> Forall (fun n => v n <> VT) (required d) ->
          let format := if (length (df_type d) =? 0)%nat then fst (cfg_set (txt (v (bs "format")))) else {| cf_type := df_type d; cf_params := df_params d |} in
          ((forall r, import_reader upper format <> Ok r) -> run = Error) /\
          (forall r, import_reader upper format = Ok r -> exists scripts,
             Forall2 (script_for content interp (fun r bytes => match r with RCsv delim header => read_csv (decode delim) header bytes | RJson => read_json_text order bytes end)
                        r (or_option (df_code d) (v (bs "code")))) (words line) scripts /\
             run = do main <- load (txt (v (bs "ledger")));
                   Ok (Some (run_import srt f64 is_letter today set_string jw ord1 ord2
                     {| im_account := txt (v (bs "acct")); im_counter := txt (v (bs "cacct")); im_ccy := df_ccy d; im_dedup := on (v (bs "dedup")); im_reclass := on (v (bs "reclassify")) |}
                     (txt (v (bs "ccy"))) main scripts))))).
  Proof.
    intros Hw Hc run. destruct (nodup_import d) as [Hn Hf]. pose proof (link_import lang d) as Hlink.
    destruct (run_own fold parse_int (import_conf d) (over_import d) lang (import_flags d) _ _ Hlink Hn Hf (letters_import d) line args first file c Hw Hc) as [H1 H2]. split.
    - intros Hu. unfold run, import_main, execute. rewrite (H2 Hu). reflexivity.
    - intros Hu. destruct (H1 Hu) as (c' & Ep & Ha & He). exists (val_in (app_flags ++ import_flags d) c'). split; [exact (values_own _ _ _ _ _ line file c' Hlink Hn He)|].
      pose proof (open_required d c' line c Ha Hn Hf) as Hreq. unfold run, import_main, execute. rewrite Ep. cbn [obind]. set (words_ := words line) in *. clearbody words_. 
      assert (Hcode : get_str c' (own (bs "code")) = or_option (df_code d) (val_in (app_flags ++ import_flags d) c' (bs "code"))).
      { destruct d as [ty ps [|x co] ac ca cc de re]; [destruct ty; reflexivity|]. unfold get_str. rewrite (applied_other fold parse_int (app_flags ++ import_flags (mkImportDef ty ps (x :: co) ac ca cc de re)) (own (bs "code"))) with (l := line) (c := import_conf (mkImportDef ty ps (x :: co) ac ca cc de re) c); [reflexivity| |exact Ha].
        intros f Hin E. unfold import_flags in Hin. cbn [df_code] in Hin. destruct ty; cbn in Hin; repeat (destruct Hin as [<-|Hin]; [discriminate E|]); contradiction. }
      assert (Hfmt : match df_type d with [] => fst (cfg_set (get_str c' (own (bs "format")))) | t => mkCfg t (df_params d) end =
        if (length (df_type d) =? 0)%nat then fst (cfg_set (txt (val_in (app_flags ++ import_flags d) c' (bs "format")))) else mkCfg (df_type d) (df_params d)).
      { destruct d as [[|y ty] ps co ac ca cc de re]; [|reflexivity]. destruct co; reflexivity. }
      rewrite Hcode, Hfmt. clear Hcode Hfmt H1 H2 Hu He Ha Ep Hw Hc run.
      assert (Hv : forall P : value -> value -> value -> value -> value -> value -> value -> Prop,
        P (c' [bs "flag"; bs "help"]) (c' [bs "Ledger"]) (c' [bs "BaseCCY"]) (c' (own (bs "acct"))) (c' (own (bs "cacct"))) (c' (own (bs "dedup"))) (c' (own (bs "reclassify"))) ->
        let v := val_in (app_flags ++ import_flags d) c' in P (v (bs "help")) (v (bs "ledger")) (v (bs "ccy")) (v (bs "acct")) (v (bs "cacct")) (v (bs "dedup")) (v (bs "reclassify"))).
      { intros P. destruct d as [[|y ty] ps [|x co] ac ca cc de re]; exact (fun H => H). }
      set (v := val_in (app_flags ++ import_flags d) c') in *. cbv zeta in Hv. unfold get_flag, get_str.
      assert (v (bs "help") = c' [bs "flag"; bs "help"]) as -> by (refine (Hv (fun a _ _ _ _ _ _ => a = _) _); reflexivity).
      assert (v (bs "ledger") = c' [bs "Ledger"]) as -> by (refine (Hv (fun _ a _ _ _ _ _ => a = _) _); reflexivity).
      assert (v (bs "ccy") = c' [bs "BaseCCY"]) as -> by (refine (Hv (fun _ _ a _ _ _ _ => a = _) _); reflexivity).
      assert (v (bs "acct") = c' (own (bs "acct"))) as -> by (refine (Hv (fun _ _ _ a _ _ _ => a = _) _); reflexivity).
      assert (v (bs "cacct") = c' (own (bs "cacct"))) as -> by (refine (Hv (fun _ _ _ _ a _ _ => a = _) _); reflexivity).
      assert (v (bs "dedup") = c' (own (bs "dedup"))) as -> by (refine (Hv (fun _ _ _ _ _ a _ => a = _) _); reflexivity).
      assert (v (bs "reclassify") = c' (own (bs "reclassify"))) as -> by (refine (Hv (fun _ _ _ _ _ _ a => a = _) _); reflexivity).
      clear Hv. unfold on, txt. split; [intros ->; reflexivity|]. split.
      + intros -> Hor. assert (existsb (open_flag c') [bs "code"; bs "format"; bs "acct"; bs "cacct"] || match words_ with [] => true | _ => false end = true) as ->; [|reflexivity].
        apply Bool.orb_true_iff. destruct Hor as [->|Hor]; [right; reflexivity|left; apply Hreq; exact Hor].
      + intros -> Hwords Hall. assert (existsb (open_flag c') [bs "code"; bs "format"; bs "acct"; bs "cacct"] || match words_ with [] => true | _ => false end = false) as ->.
        { apply Bool.orb_false_iff. split; [|destruct words_; [contradiction|reflexivity]]. apply Bool.not_true_iff_false. intros E. apply Hreq in E. revert E. apply Forall_Exists_neg. exact Hall. }
        cbv zeta. match goal with |- context [import_reader upper ?f] => set (fm := f) end. split.
        * intros Hno. destruct (reader_outcome upper fm) as [(r & E)| ->]; [exfalso; exact (Hno r E)|reflexivity].
        * intros r Hr. exists (map (script_of order interp content r (or_option (df_code d) (v (bs "code")))) words_). split.
          { clear. induction words_ as [|w ws IH]; constructor; [|exact IH]. exact (script_of_ok order interp content r _ w). }
          rewrite Hr. cbn [obind]. destruct (load _) as [b| | |]; reflexivity.
  Qed.
End Import.
Print Assumptions C117_import.

(** ** The definition behind a name is the table importdefs.name of the configuration file. *)
Lemma step_struct fs P t k q : NoDup (folded fs) -> In (P, t) fs -> (field_path (TStruct fs) k = Some (P :: q) <-> exists a b, k = a :: b /\ map lower a = map lower P /\ field_path t b = Some q).
Proof.
  intros Hd Hin. split.
  - destruct k as [|a b]; [discriminate|]. cbn [field_path]. destruct (lookup_name a fs) as [[n u]|] eqn:E; [|discriminate]. destruct (field_path u b) as [q'|] eqn:Eq; [|discriminate]. cbn [option_map]. intros H. injection H as -> ->.
    apply (lookup_name_ok fs a _ _ Hd) in E as [H1 H2]. destruct (folded_unique fs _ _ _ _ Hd H1 Hin eq_refl) as [_ ->]. eauto.
  - intros (a & b & -> & H & Hb). cbn [field_path]. assert (lookup_name a fs = Some (P, t)) as -> by (apply (lookup_name_ok fs a P t Hd); auto). rewrite Hb. reflexivity.
Qed.
Lemma step_map t n k q : field_path (TMap t) k = Some (n :: q) <-> exists b, k = n :: b /\ field_path t b = Some q.
Proof.
  split.
  - destruct k as [|a b]; [discriminate|]. cbn [field_path]. destruct (field_path t b) as [q'|] eqn:E; [|discriminate]. intros H. injection H as -> ->. eauto.
  - intros (b & -> & H). cbn [field_path]. rewrite H. reflexivity.
Qed.
Definition fields_of (t : ty) : list (str * ty) := match t with TStruct fs => fs | _ => [] end.
Lemma table_path T u name rest k : In (T, TMap u) (fields_of config_ty) -> (field_path config_ty k = Some (T :: name :: rest) <-> exists a b, k = a :: name :: b /\ map lower a = map lower T /\ field_path u b = Some rest).
Proof.
  intros Hin. change config_ty with (TStruct (fields_of config_ty)). rewrite (step_struct _ T (TMap u)); [|apply nodupb_ok; vm_compute; reflexivity|exact Hin]. split.
  - intros (a & b & -> & H1 & H2). apply step_map in H2 as (b' & -> & H2). eauto 6.
  - intros (a & b & -> & H1 & H2). exists a, (name :: b). split; [reflexivity|]. split; [exact H1|]. apply step_map. eauto.
Qed.
Lemma stored_value lang p (key : list str -> Prop) first file c : (forall k, field_path config_ty k = Some p <-> key k) -> builtin lang p = VT -> decode_config first file (builtin lang) = Ok c -> last_value key file (c p).
Proof.
  intros Hk Hb Hc. unfold decode_config in Hc. destruct (existsb ill_typed (keys_of file)); [discriminate|]. destruct (negb first && existsb no_field (keys_of file)); [discriminate|]. injection Hc as <-.
  destruct (stored p file (builtin lang)) as [(e1 & k & v & e2 & -> & G1 & G2 & ->)|[G1 ->]].
  - left. exists e1, k, e2. split; [reflexivity|]. split; [apply Hk; exact G1|]. eapply Forall_impl; [|exact G2]. intros e He H. apply He. apply Hk. exact H.
  - right. split; [|exact Hb]. eapply Forall_impl; [|exact G1]. intros e He H. apply He. apply Hk. exact H.
Qed.
Lemma builtin_deep lang a b c r : builtin lang (a :: b :: c :: r) = VT.
Proof. unfold builtin. replace (path_eqb (a :: b :: c :: r) [bs "Ledger"]) with false by (cbn [path_eqb]; rewrite Bool.andb_comm; reflexivity). 
  replace (path_eqb (a :: b :: c :: r) [bs "Lang"]) with false by (cbn [path_eqb]; rewrite Bool.andb_comm; reflexivity). replace (path_eqb (a :: b :: c :: r) [bs "Divider"]) with false by (cbn [path_eqb]; rewrite Bool.andb_comm; reflexivity).
  replace (path_eqb (a :: b :: c :: r) [bs "Colour"]) with false by (cbn [path_eqb]; rewrite Bool.andb_comm; reflexivity). reflexivity. Qed.
Lemma in_table lang T table u F f name first file c : In (T, TMap u) (fields_of config_ty) -> map lower T = map lower table -> exact_path u [F] = true -> map lower F = map lower f ->
  decode_config first file (builtin lang) = Ok c -> last_value (at_name table name [f]) file (c [T; name; F]).
Proof.
  intros Hin Ht Hx Hf Hc. apply (stored_value lang [T; name; F] _ first file c); [|apply builtin_deep|exact Hc]. intros k. rewrite (table_path T u name [F] k Hin). unfold at_name, same_key. cbn [map].
  split; intros (a & b & -> & H1 & H2); exists a, b; (split; [reflexivity|]); (split; [|]).
  - congruence.
  - apply (field_path_ok [F] u b Hx) in H2. unfold same_key in H2. cbn [map] in H2. congruence.
  - injection H1 as H1. congruence.
  - apply (field_path_ok [F] u b Hx). unfold same_key. cbn [map]. congruence.
Qed.

Theorem C117_definition lang name first file c : decode_config first file (builtin lang) = Ok c ->
  let d := import_def_of c name in let at_ f := last_value (at_name (bs "importdefs") name [f]) file in
  (exists v, at_ (bs "configtype") v /\ df_type d = txt v) /\ (exists v, at_ (bs "code") v /\ df_code d = txt v) /\ (exists v, at_ (bs "account") v /\ df_account d = txt v) /\
  (exists v, at_ (bs "counteraccount") v /\ df_counter d = txt v) /\ (exists v, at_ (bs "ccy") v /\ df_ccy d = txt v) /\
  (exists v, at_ (bs "dedup") v /\ df_dedup d = on v) /\ (exists v, at_ (bs "reclassify") v /\ df_reclass d = on v) /\
  (forall p, In p [bs "delim"; bs "header"] -> exists v, last_value (at_param (bs "importdefs") name p) file v /\ aget str_eqb p (df_params d) = match v with VS s => Some s | _ => None end).
Proof.
  intros Hc d at_. assert (Hin : In (bs "ImportDefs", TMap import_ty) (fields_of config_ty)) by (do 11 right; left; reflexivity).
  assert (G : forall F f, exact_path import_ty [F] = true -> map lower F = map lower f -> at_ f (c [bs "ImportDefs"; name; F])) by (intros F f H1 H2; exact (in_table lang _ _ import_ty F f name first file c Hin eq_refl H1 H2 Hc)).
  split; [eexists; split; [apply (G (bs "ConfigType")); reflexivity|reflexivity]|]. split; [eexists; split; [apply (G (bs "Code")); reflexivity|reflexivity]|]. split; [eexists; split; [apply (G (bs "Account")); reflexivity|reflexivity]|].
  split; [eexists; split; [apply (G (bs "CounterAccount")); reflexivity|reflexivity]|]. split; [eexists; split; [apply (G (bs "CCY")); reflexivity|reflexivity]|].
  split; [eexists; split; [apply (G (bs "Dedup")); reflexivity|reflexivity]|]. split; [eexists; split; [apply (G (bs "Reclassify")); reflexivity|reflexivity]|].
  intros p Hp. exists (c [bs "ImportDefs"; name; bs "Params"; p]). split.
  - apply (stored_value lang [bs "ImportDefs"; name; bs "Params"; p] _ first file c); [|apply builtin_deep|exact Hc]. intros k. rewrite (table_path _ _ name [bs "Params"; p] k Hin). unfold at_param, same_key. cbn [map]. split.
    + intros (a & b & -> & H1 & H2). unfold import_ty in H2. apply (step_struct _ (bs "Params") (TMap TStr)) in H2 as (b1 & b2 & -> & H2 & H3); [|apply nodupb_ok; vm_compute; reflexivity|cbn; tauto].
      apply step_map in H3 as (b3 & -> & H3). destruct b3 as [|x b3]; [|discriminate H3]. exists a, b1. split; [reflexivity|]. rewrite H1, H2. split; reflexivity.
    + intros (a & b & -> & H1 & H2). injection H1 as H1. injection H2 as H2. exists a, [b; p]. split; [reflexivity|]. split; [rewrite H1; reflexivity|]. unfold import_ty. apply (step_struct _ (bs "Params") (TMap TStr)); [apply nodupb_ok; vm_compute; reflexivity|cbn; tauto|].
      exists b, [p]. split; [reflexivity|]. split; [rewrite H2; reflexivity|]. apply step_map. exists []. auto.
  - unfold d, import_def_of. cbn [df_params]. cbn [In] in Hp. destruct Hp as [<-|[<-|[]]];
      destruct (c [bs "ImportDefs"; name; bs "Params"; bs "delim"]); destruct (c [bs "ImportDefs"; name; bs "Params"; bs "header"]); reflexivity.
Qed.
Print Assumptions C117_definition.

(** ** goledger generate [name] *)
Lemma letters_generate d x : by_letter (app_flags ++ generate_flags d) x = by_name (app_flags ++ generate_flags d) (letter_of generate_letters x).
Proof.
  destruct d as [co de]. unfold letter_of, by_letter, generate_letters, common_letters, generate_flags. cbn [gd_code app find fst snd app_flags f_short].
  destruct (108 =? x) eqn:E1; [reflexivity|]. destruct (104 =? x) eqn:E2; [reflexivity|]. destruct (100 =? x) eqn:E3; [reflexivity|]. destruct co; reflexivity.
Qed.
Lemma nodup_generate d : NoDup (map f_name (app_flags ++ generate_flags d)) /\ NoDup (map f_field (app_flags ++ generate_flags d)).
Proof. destruct d as [[|x co] de]; unfold generate_flags; cbn [gd_code app app_flags]; split; distinct. Qed.
Section Generate.
  Variable fold : str -> str -> bool.
  Variable parse_int : str -> option Z.
  Variable srt : list posting -> list posting.
  Variable f64 : Qc -> Qc.
  Variable is_letter : Z -> bool.
  Variable today : Z.
  Variable set_string : str -> option Qc.
  Variable content : str -> option str.
  Variable load : str -> outcome book.
  Variable gen : str -> book -> list op * script.
  Variable lang : str.
  Theorem C117_generate d line args first file c : written (is_switch (common lang ++ generate_options d)) (letter_of generate_letters) line args -> decode_config first file (builtin lang) = Ok c ->
    let run := generate_main fold parse_int srt f64 is_letter today set_string content load gen d c args in
    (~ Forall (usable fold parse_int (common lang ++ generate_options d)) line -> run = Error) /\
    (Forall (usable fold parse_int (common lang ++ generate_options d)) line -> exists v, values_of fold parse_int (common lang ++ generate_options d) line file v /\
       (on (v (bs "help")) = true -> run = Ok None) /\
       (on (v (bs "help")) = false -> words line <> [] \/ (gd_code d = [] /\ v (bs "code") = VT) -> run = Error) /\
       (on (v (bs "help")) = false -> words line = [] -> gd_code d <> [] \/ v (bs "code") <> VT -> forall text, code_text content (or_option (gd_code d) (v (bs "code"))) text -> run =
          do main <- load (txt (v (bs "ledger")));
          match text with
          | None => Error
          | Some sc => do r <- run_generate srt f64 is_letter today set_string (on (v (bs "dedup"))) main (fst (gen sc main)) (snd (gen sc main)); Ok (Some r)
          end)).
  Proof.
    intros Hw Hc run. destruct (nodup_generate d) as [Hn Hf]. pose proof (link_generate lang d) as Hlink.
    destruct (run_own fold parse_int (generate_conf d) (over_generate d) lang (generate_flags d) _ _ Hlink Hn Hf (letters_generate d) line args first file c Hw Hc) as [H1 H2]. split.
    - intros Hu. unfold run, generate_main, execute. rewrite (H2 Hu). reflexivity.
    - intros Hu. destruct (H1 Hu) as (c' & Ep & Ha & He). exists (val_in (app_flags ++ generate_flags d) c'). split; [exact (values_own _ _ _ _ _ line file c' Hlink Hn He)|].
      unfold run, generate_main, execute. rewrite Ep. cbn [obind]. set (words_ := words line) in *. clearbody words_.
      assert (Hopen : open_flag c' (bs "code") = true <-> gd_code d = [] /\ val_in (app_flags ++ generate_flags d) c' (bs "code") = VT).
      { unfold open_flag. destruct d as [[|x co] de].
        - change (val_in (app_flags ++ generate_flags (mkGenDef [] de)) c' (bs "code")) with (c' (own (bs "code"))). destruct (c' (own (bs "code"))); split; try discriminate; [intros [_ H]; discriminate H..|auto|auto].
        - rewrite (applied_other fold parse_int (app_flags ++ generate_flags (mkGenDef (x :: co) de)) (own (bs "code"))) with (l := line) (c := generate_conf (mkGenDef (x :: co) de) c); [split; [discriminate|intros [H _]; discriminate H]| |exact Ha].
          intros f Hin E. cbn in Hin; repeat (destruct Hin as [<-|Hin]; [discriminate E|]); contradiction. }
      assert (Hcode : get_str c' (own (bs "code")) = or_option (gd_code d) (val_in (app_flags ++ generate_flags d) c' (bs "code"))).
      { destruct d as [[|x co] de]; [reflexivity|]. unfold get_str. rewrite (applied_other fold parse_int (app_flags ++ generate_flags (mkGenDef (x :: co) de)) (own (bs "code"))) with (l := line) (c := generate_conf (mkGenDef (x :: co) de) c); [reflexivity| |exact Ha].
        intros f Hin E. cbn in Hin; repeat (destruct Hin as [<-|Hin]; [discriminate E|]); contradiction. }
      rewrite Hcode. clear Hcode H1 H2 Hu He Ha Ep Hw Hc run.
      assert (val_in (app_flags ++ generate_flags d) c' (bs "help") = c' [bs "flag"; bs "help"]) as -> by (destruct d as [[|x co] de]; reflexivity).
      assert (val_in (app_flags ++ generate_flags d) c' (bs "ledger") = c' [bs "Ledger"]) as -> by (destruct d as [[|x co] de]; reflexivity).
      assert (val_in (app_flags ++ generate_flags d) c' (bs "dedup") = c' (own (bs "dedup"))) as -> by (destruct d as [[|x co] de]; reflexivity).
      set (v := val_in (app_flags ++ generate_flags d) c' (bs "code")) in *. clearbody v. unfold get_flag, get_str, on, txt. split; [intros ->; reflexivity|]. split.
      + intros -> Hor. assert (open_flag c' (bs "code") || match words_ with [] => false | _ => true end = true) as ->; [|reflexivity].
        apply Bool.orb_true_iff. destruct Hor as [Hor|Hor]; [right; destruct words_; [contradiction|reflexivity]|left; apply Hopen; exact Hor].
      + intros -> -> Hor text Ht. assert (open_flag c' (bs "code") || false = false) as ->.
        { rewrite Bool.orb_false_r. apply Bool.not_true_iff_false. intros E. apply Hopen in E. destruct E, Hor; contradiction. }
        rewrite (code_text_only content _ _ Ht).
        destruct (load _) as [b| | |]; cbn [obind]; [|reflexivity..]. destruct text as [sc|]; [|reflexivity]. reflexivity.
  Qed.
End Generate.
Print Assumptions C117_generate.

Theorem C117_generate_definition lang name first file c : decode_config first file (builtin lang) = Ok c ->
  let d := generate_def_of c name in let at_ f := last_value (at_name (bs "generate") name [f]) file in
  (exists v, at_ (bs "code") v /\ gd_code d = txt v) /\ (exists v, at_ (bs "dedup") v /\ gd_dedup d = on v).
Proof.
  intros Hc d at_. set (T := TStruct [(bs "Description", TStr); (bs "Code", TStr); (bs "Dedup", TBool)]).
  assert (Hin : In (bs "Generate", TMap T) (fields_of config_ty)) by (do 12 right; left; reflexivity).
  assert (G : forall F f, exact_path T [F] = true -> map lower F = map lower f -> at_ f (c [bs "Generate"; name; F])) by (intros F f H1 H2; exact (in_table lang _ _ T F f name first file c Hin eq_refl H1 H2 Hc)).
  split; [eexists; split; [apply (G (bs "Code")); reflexivity|reflexivity]|eexists; split; [apply (G (bs "Dedup")); reflexivity|reflexivity]].
Qed.
Print Assumptions C117_generate_definition.

From Verif Require Import BookProps LoaderProps ExportProps ScriptProps ImportProps OptionsModel OptionsSpec ImportOptModel ImportOptSpec.

(** ** A definition in the configuration file, a command line with joined letters, a script in a file, two files of which one cannot be read. *)
Definition ex117_file : list (list str * value) :=
  [([bs "baseccy"], VS (bs "GBP")); ([bs "IMPORTDEFS"; bs "bank"; bs "ConfigType"], VS (bs "csv")); ([bs "importdefs"; bs "bank"; bs "params"; bs "delim"], VS (bs ";"));
   ([bs "importdefs"; bs "bank"; bs "account"], VS (bs "Cash")); ([bs "importdefs"; bs "bank"; bs "dedup"], VB true); ([bs "importdefs"; bs "Bank"; bs "account"], VS (bs "Other"))].
Definition ex117_args : list str := [bs "jan.csv"; bs "--code"; bs "file:rows"; bs "-drc"; bs "Unknown"; bs "-lm"; bs "feb.csv"].
Definition ex117_line : list item :=
  [Word (bs "jan.csv"); Opt (bs "code") (bs "file:rows"); Opt (bs "dedup") (bs "true"); Opt (bs "reclassify") (bs "true"); Opt (bs "cacct") (bs "Unknown"); Opt (bs "ledger") (bs "m"); Word (bs "feb.csv")].
Definition ex117_content (f : str) : option str :=
  if str_eqb f (bs "jan.csv") then Some (bs "2024-01-04;Shop;-1" ++ nl ++ bs "2024-02-01;Shop;-5" ++ nl ++ bs "2024-02-02;Cinema;-9" ++ nl)
  else if str_eqb f (bs "rows") then Some (bs "the script") else None.
Definition ex117_interp (code : str) (data : sval) (file : str) : script :=
  if str_eqb code (bs "the script") then
    match data with
    | SList rows => (flat_map (fun r => match r with SList [SStr d; SStr p; SStr a] => [x_add d p (if str_eqb a (bs "-1") then -1 else if str_eqb a (bs "-5") then -5 else -9)] | _ => [] end) rows, false)
    | _ => ([], true)
    end
  else ([], true).
Definition x_import117 (first : bool) (args : list str) : outcome (option (list str * outcome unit)) :=
  do c <- decode_config first ex117_file (builtin (bs "en"));
  do r <- import_main equal_fold (fun _ => None) xsort x_f64 x_letter 20240301 x_ss x_jw (fun _ _ l => rev l) (fun _ _ l => l) (fun x => x) (fun l => l) ex117_interp ex117_content
    (fun f => if str_eqb f (bs "m") then Ok x_main else Error) (import_def_of c (bs "bank")) c args;
  Ok (option_map (fun r => (map snd (fst r), snd r)) r).
Example C117_nonvacuous :
  (exists c, decode_config false ex117_file (builtin (bs "en")) = Ok c /\
     (let d := import_def_of c (bs "bank") in required d = [bs "code"; bs "cacct"] /\ df_account d = bs "Cash" /\ df_dedup d = true /\ df_reclass d = false /\
      written (is_switch (common (bs "en") ++ import_options d)) (letter_of import_letters) ex117_line ex117_args)) /\
  x_import117 false ex117_args = Ok (Some ([bs "2024/02/01 Shop" ++ nl ++ bs "  Cash  GBP -5" ++ nl ++ bs "  Food  GBP 5" ++ nl ++ nl ++
                                            bs "2024/02/02 Cinema" ++ nl ++ bs "  Cash  GBP -9" ++ nl ++ bs "  Unknown  GBP 9" ++ nl ++ nl], Error)) /\
  x_import117 false [bs "jan.csv"; bs "--code"; bs "file:rows"; bs "-l"; bs "m"] = Error /\ x_import117 false [bs "--code"; bs "file:rows"; bs "-cUnknown"; bs "-lm"] = Error /\
  x_import117 false [bs "jan.csv"; bs "--format"; bs "csv"; bs "--code"; bs "file:rows"; bs "-cUnknown"; bs "-lm"] = Error /\ x_import117 false [bs "-h"] = Ok None.
Proof.
  split.
  { eexists. split; [reflexivity|]. split; [reflexivity|]. split; [reflexivity|]. split; [reflexivity|]. split; [reflexivity|]. unfold ex117_line, ex117_args.
    apply W_word; [discriminate|]. apply (W_two _ _ (bs "code")); [discriminate|cbn; intuition discriminate|discriminate|vm_compute; reflexivity|].
    refine (W_joined _ (letter_of import_letters) 100 114 (bs "c") _ _ _ _ _ _ _); [discriminate|discriminate|discriminate|vm_compute; reflexivity|].
    refine (W_joined _ (letter_of import_letters) 114 99 [] _ _ _ _ _ _ _); [discriminate|discriminate|discriminate|vm_compute; reflexivity|].
    refine (W_letter _ (letter_of import_letters) 99 (bs "Unknown") _ _ _ _ _); [discriminate|vm_compute; reflexivity|].
    refine (W_letter_at _ (letter_of import_letters) 108 (bs "m") _ _ _ _ _ _ _); [discriminate|vm_compute; reflexivity|discriminate|discriminate|]. apply W_word; [discriminate|]. apply W_end. }
  split; [vm_compute; reflexivity|]. repeat split; vm_compute; reflexivity.
Qed.

(** Without a name, nothing is fixed: both switches are on, and everything else must be given on the command line. *)
Theorem C117_plain : 
  import_options plain_import =
    [mkOption (bs "dedup") Switch [] (VB true); mkOption (bs "reclassify") Switch [] (VB true); mkOption (bs "code") AnyText [] VT; mkOption (bs "format") Format [] VT;
     mkOption (bs "acct") AnyText [] VT; mkOption (bs "cacct") AnyText [] VT] /\
  (forall n, In n (required plain_import) <-> In n [bs "code"; bs "format"; bs "acct"; bs "cacct"]) /\ df_ccy plain_import = [] /\ df_params plain_import = [] /\
  generate_options plain_generate = [mkOption (bs "dedup") Switch [] (VB true); mkOption (bs "code") AnyText [] VT].
Proof. repeat split; intros H; cbn in *; tauto. Qed.
Print Assumptions C117_plain.
