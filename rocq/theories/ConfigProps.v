(** * ConfigProps: C59, the configuration file. *)
From Verif Require Import Base RegisterModel BookOpModel CfgModel ConfigModel.

Section Config.
  Variable path : list str -> str.
  Variable toml : str -> option (list entry).
  Notation load := (load path toml).
  Notation search := (search path).

  (** A text is a correct configuration: it can be read, every value fits and every key has a field. *)
  Definition correct (s : str) : Prop := exists es, toml s = Some es /\
    forall p k, In (p, k) es -> exists t, resolve config_ty p = Some t /\ fits t k = true.

  Lemma correct_iff s : correct s <-> decode_toml toml s = Ok [].
  Proof.
    unfold correct, decode_toml. destruct (toml s) as [es|]; [|split; [intros (es & C & _)|]; discriminate]. split.
    - intros (es' & E & H). injection E as <-.
      assert (G : existsb ill_typed es = false /\ filter no_field es = []).
      { clear -H. induction es as [|[p k] es IH]; [auto|]. destruct IH as [I1 I2]; [intros q j Hq; apply H; right; exact Hq|].
        destruct (H p k) as (t & Ht & Hf); [left; reflexivity|]. cbn [existsb filter]. unfold ill_typed at 1, no_field at 1. cbn [fst snd].
        rewrite Ht, Hf, I1, I2. auto. }
      destruct G as [-> ->]. reflexivity.
    - destruct (existsb ill_typed es) eqn:E; [discriminate|]. intros H. exists es. split; [reflexivity|]. intros p k Hp.
      destruct (resolve config_ty p) as [t|] eqn:Er.
      + exists t. split; [reflexivity|]. destruct (fits t k) eqn:Ef; [reflexivity|]. exfalso.
        assert (C : existsb ill_typed es = true); [|congruence]. apply existsb_exists. exists (p, k). split; [exact Hp|]. unfold ill_typed. cbn. rewrite Er, Ef. reflexivity.
      + exfalso. injection H as H. assert (C : In (p, k) (filter no_field es)) by (apply filter_In; split; [exact Hp|unfold no_field; cbn; rewrite Er; reflexivity]).
        destruct (filter no_field es); [destruct C|discriminate].
  Qed.

  Lemma read_first_at fs l f l' : (forall g, In g l -> fs g = Missing) -> fs f <> Missing ->
    read_first toml fs (l ++ f :: l') = match fs f with Text s => match decode_toml toml s with Ok [] => Some (Ok s) | _ => Some Error end | _ => Some Error end.
  Proof.
    intros Hl Hf. induction l as [|g l IH]; cbn [app read_first].
    - destruct (fs f) as [| |s]; [contradiction|reflexivity|]. destruct (decode_toml toml s) as [[|? ?]| | |]; reflexivity.
    - rewrite (Hl g) by (left; reflexivity). apply IH. intros h Hh. apply Hl. right. exact Hh.
  Qed.
  Lemma read_first_none fs l : (forall g, In g l -> fs g = Missing) -> read_first toml fs l = None.
  Proof.
    induction l as [|g l IH]; intros H; cbn; [reflexivity|]. rewrite (H g) by (left; reflexivity). apply IH. intros h Hh. apply H. right. exact Hh.
  Qed.

  (** C59: the first existing file of the search list is the one used, whatever else exists; it is accepted exactly when
      it is a correct configuration; nothing is written. *)
  Theorem C59_first_existing : forall writable e fs l f l' wd,
    search e = (l ++ f :: l', wd) -> (forall g, In g l -> fs g = Missing) -> fs f <> Missing ->
    snd (load writable e fs) = fs /\
    (forall s, fs f = Text s -> correct s -> fst (load writable e fs) = Ok (Some s)) /\
    ((forall s, fs f = Text s -> ~ correct s) -> fst (load writable e fs) = Error).
  Proof.
    intros writable e fs l f l' wd Hs Hl Hf. unfold ConfigModel.load. rewrite Hs, (read_first_at fs l f l' Hl Hf).
    destruct (fs f) as [| |s] eqn:E; [contradiction| |].
    - cbn. repeat split; auto. discriminate.
    - destruct (decode_toml toml s) as [[|? ?]| | |] eqn:Ed; cbn;
      (split; [reflexivity|]); (split; [intros s' Es Hc; injection Es as <-; apply correct_iff in Hc; congruence|]); intros H; try reflexivity.
      exfalso. apply (H s eq_refl). apply correct_iff. exact Ed.
  Qed.

  (** C59: the search list itself. *)
  Theorem C59_search_list : forall e,
    (forall f, e_conf e = Some f -> f <> [] -> search e = ([f], true)) /\
    (forall d h, (e_conf e = None \/ e_conf e = Some []) -> e_config_dir e = Some d -> e_home e = Some h ->
       search e = ([path [d; bs "goledger"; bs "goledger.toml"]; path [d; bs "goledger"; bs "goledger.cfg"];
                    path [h; bs "goledger.toml"]; path [h; bs "goledger.cfg"];
                    path [h; bs ".goledger.toml"]; path [h; bs ".goledger.cfg"];
                    bs "goledger.toml"; bs "goledger.cfg"], true)) /\
    (forall d, (e_conf e = None \/ e_conf e = Some []) -> e_config_dir e = Some d -> e_home e = None ->
       search e = ([path [d; bs "goledger"; bs "goledger.toml"]; path [d; bs "goledger"; bs "goledger.cfg"]; bs "goledger.toml"; bs "goledger.cfg"], true)) /\
    (forall h, (e_conf e = None \/ e_conf e = Some []) -> e_config_dir e = None -> e_home e = Some h ->
       search e = ([path [h; bs "goledger.toml"]; path [h; bs "goledger.cfg"]; path [h; bs ".goledger.toml"]; path [h; bs ".goledger.cfg"];
                    bs "goledger.toml"; bs "goledger.cfg"], false)) /\
    ((e_conf e = None \/ e_conf e = Some []) -> e_config_dir e = None -> e_home e = None -> search e = ([bs "goledger.toml"; bs "goledger.cfg"], false)).
  Proof.
    intros e. split; [|split; [|repeat split; intros *; intros Hc Hd Hh; unfold ConfigModel.search; destruct Hc as [-> | ->]; rewrite Hd, Hh; reflexivity]].
    - intros f Hf Hn. unfold ConfigModel.search. rewrite Hf. destruct f; [contradiction|reflexivity].
    - intros d h Hc Hd Hh. unfold ConfigModel.search. destruct Hc as [-> | ->]; rewrite Hd, Hh; reflexivity.
  Qed.

  (** The reader of the library finds the keys of the default configuration. *)
  Hypothesis reads_default : toml default_config = simple_toml default_config.

  Lemma default_decoded : decode_toml toml default_config = Ok [[bs "report"; bs "macros"]; [bs "report"; bs "macros"; bs "macroA"]].
  Proof. unfold decode_toml. rewrite reads_default. vm_compute. reflexivity. Qed.

  (** C59: the first start, when no file of the search list exists: the default configuration is written to the first
      file of the list and used. *)
  Theorem C59_first_start : forall e fs f l,
    search e = (f :: l, true) -> (forall g, In g (f :: l) -> fs g = Missing) ->
    exists fs', load true e fs = (Ok (Some default_config), fs') /\ fs' f = Text default_config /\ (forall g, g <> f -> fs' g = fs g).
  Proof.
    intros e fs f l Hs Hm. unfold ConfigModel.load. rewrite Hs, (read_first_none fs _ Hm), default_decoded. cbn [negb].
    eexists. split; [reflexivity|]. cbn beta. split; [rewrite str_eqb_refl; reflexivity|]. intros g Hg.
    apply str_eqb_neq in Hg. rewrite Hg. reflexivity.
  Qed.

  (** C59 EXPECTED, refuted in every environment: the second start rejects the file the first start has written. *)
  Theorem C59_second_start_refuted : forall e fs f l writable,
    search e = (f :: l, true) -> (forall g, In g (f :: l) -> fs g = Missing) ->
    forall fs', load true e fs = (Ok (Some default_config), fs') -> fst (load writable e fs') = Error.
  Proof.
    intros e fs f l writable Hs Hm fs' H. destruct (C59_first_start e fs f l Hs Hm) as (fs'' & H' & Hf & _).
    assert (fs'' = fs') by congruence. subst fs''.
    destruct (C59_first_existing writable e fs' [] f l true Hs) as (_ & _ & H2).
    - intros g [].
    - rewrite Hf. discriminate.
    - apply H2. intros s Es Hc. rewrite Hf in Es. assert (s = default_config) by congruence. subst s.
      apply correct_iff in Hc. rewrite default_decoded in Hc. discriminate.
  Qed.

  (** C59: the two keys of the section report.macros are all that is wrong with it: without them the default would be
      accepted at every start. *)
  Theorem C59_default_without_macros_partial :
    exists es, toml default_config = Some es /\
    forall p k, In (p, k) es -> firstn 2 p <> [bs "report"; bs "macros"] -> exists t, resolve config_ty p = Some t /\ fits t k = true.
  Proof.
    rewrite reads_default. destruct (simple_toml default_config) as [es|] eqn:E; [|vm_compute in E; discriminate].
    exists es. split; [reflexivity|]. vm_compute in E. injection E as <-. intros p k Hp Hn.
    repeat (destruct Hp as [Hp|Hp]; [injection Hp as <- <-; try (exfalso; apply Hn; reflexivity); eexists; split; vm_compute; reflexivity|]). destruct Hp.
  Qed.
End Config.

Print Assumptions C59_first_existing.
Print Assumptions C59_search_list.
Print Assumptions C59_first_start.
Print Assumptions C59_second_start_refuted.
Print Assumptions C59_default_without_macros_partial.

(** ** The settings a configuration file may have: their keys (names regardless of case; [None]: any name) and the kind of their values. *)
Definition settings : list (list (option str) * kind) :=
  let top l := map (fun n : str => [Some n]) l in let sec a l := map (fun n : str => [Some a; Some n]) l in
  let any a l := map (fun n : str => [Some a; None; Some n]) l in let dl a l := map (fun n : str => [Some (bs "download"); Some a; Some n]) l in
  let of k := map (fun p : list (option str) => (p, k)) in
  of KTable ([[]; [Some (bs "importdefs"); None]; [Some (bs "importdefs"); None; Some (bs "params")]; [Some (bs "generate"); None]]
    ++ top [bs "macros"; bs "report"; bs "register"; bs "importdefs"; bs "generate"; bs "download"; bs "export"] ++ sec (bs "download") [bs "monzo"; bs "starling"; bs "nordigen"]) ++
  of KStr (top [bs "ledger"; bs "baseccy"; bs "divider"; bs "lang"] ++ sec (bs "report") [bs "credit"; bs "hidden"; bs "htmlcss"; bs "type"; bs "combineby"] ++
    sec (bs "register") [bs "name"; bs "short"; bs "long"; bs "begindate"; bs "enddate"; bs "type"] ++ sec (bs "export") [bs "type"] ++
    any (bs "importdefs") [bs "name"; bs "description"; bs "configtype"; bs "code"; bs "account"; bs "counteraccount"; bs "ccy"] ++
    [[Some (bs "importdefs"); None; Some (bs "params"); None]] ++ any (bs "generate") [bs "description"; bs "code"] ++
    dl (bs "monzo") [bs "clientid"; bs "clientsecret"] ++ dl (bs "starling") [bs "personalaccesstoken"] ++ dl (bs "nordigen") [bs "clientid"; bs "clientsecret"]) ++
  of KBool (top [bs "verbose"; bs "colour"; bs "all"] ++ sec (bs "report") [bs "convert"; bs "jsonpretty"; bs "sum"] ++
    sec (bs "register") [bs "asc"; bs "combined"; bs "zerostart"; bs "convert"; bs "split"] ++ sec (bs "export") [bs "jsonpretty"] ++
    any (bs "importdefs") [bs "dedup"; bs "reclassify"] ++ any (bs "generate") [bs "dedup"] ++ dl (bs "starling") [bs "alldata"]) ++
  of KInt (sec (bs "register") [bs "count"] ++ dl (bs "monzo") [bs "port"]) ++
  of KList ([[Some (bs "macros"); None]] ++ sec (bs "register") [bs "macros"; bs "accounts"]).
Definition same_key (d : option str) (k : str) : Prop := match d with Some n => map lower n = map lower k | None => True end.

Fixpoint leaves (t : ty) : list (list (option str) * kind) :=
  match t with
  | TStr => [([], KStr)] | TBool => [([], KBool)] | TInt => [([], KInt)] | TStrs => [([], KList)] | TOther => []
  | TMap t' => ([], KTable) :: map (fun x => (None :: fst x, snd x)) (leaves t')
  | TStruct fs => ([], KTable) :: flat_map (fun nt => map (fun x => (Some (map lower (fst nt)) :: fst x, snd x)) (leaves (snd nt))) fs
  end.
Fixpoint distinct_strs (l : list str) : bool := match l with [] => true | x :: l' => negb (existsb (str_eqb x) l') && distinct_strs l' end.
Fixpoint wft (t : ty) : bool :=
  match t with TMap t' => wft t' | TStruct fs => distinct_strs (map (fun nt => map lower (fst nt)) fs) && forallb (fun nt => wft (snd nt)) fs | _ => true end.
Lemma field_in eq k fs t : field eq k fs = Some t -> exists n, In (n, t) fs /\ eq n k = true.
Proof. induction fs as [|[n t'] fs IH]; cbn; [discriminate|]. destruct (eq n k) eqn:E; [intros H; injection H as <-; eauto|]. intros H. destruct (IH H) as (m & Hm & Em). eauto. Qed.
Lemma distinct_in l : distinct_strs l = true -> NoDup l.
Proof.
  induction l as [|x l IH]; cbn; [constructor|]. intros H. apply andb_true_iff in H as [H1 H2]. constructor; [|auto]. intros C. apply negb_true_iff in H1.
  assert (existsb (str_eqb x) l = true); [|congruence]. apply existsb_exists. exists x. split; [exact C|apply str_eqb_refl].
Qed.
Lemma lookup_in k fs t : distinct_strs (map (fun nt => map lower (fst nt)) fs) = true -> (lookup k fs = Some t <-> exists n, In (n, t) fs /\ map lower n = map lower k).
Proof.
  intros Hd. apply distinct_in in Hd. assert (Hu : forall n m s s', In (n, s) fs -> In (m, s') fs -> map lower n = map lower m -> s = s').
  { clear -Hd. induction fs as [|[x tx] fs IH]; intros n m s s' H1 H2 E; [destruct H1|]. cbn in Hd. inversion Hd as [|? ? Hn Hd']; subst.
    assert (G : forall y sy, In (y, sy) fs -> map lower y = map lower x -> False) by (intros y sy Hy Ey; apply Hn; apply in_map_iff; exists (y, sy); auto).
    destruct H1 as [H1|H1], H2 as [H2|H2]; try (injection H1 as <- <-); try (injection H2 as <- <-); [reflexivity|exfalso; eauto|exfalso; eauto|eauto]. }
  assert (Hf : forall n s, In (n, s) fs -> map lower n = map lower k -> exists t', lookup k fs = Some t').
  { intros n s Hn E. unfold lookup. destruct (field str_eqb k fs); [eauto|]. clear -Hn E. induction fs as [|[x tx] fs IH]; [destruct Hn|]. cbn.
    destruct (equal_fold x k) eqn:Ex; [eauto|]. destruct Hn as [Hn|Hn]; [|auto]. injection Hn as -> ->. unfold equal_fold in Ex. rewrite E, str_eqb_refl in Ex. discriminate. }
  assert (Hi : forall t', lookup k fs = Some t' -> exists n, In (n, t') fs /\ map lower n = map lower k).
  { intros t'. unfold lookup. destruct (field str_eqb k fs) eqn:E.
    - intros H. injection H as <-. apply field_in in E as (n & Hn & En). apply str_eqb_eq in En. subst n. eauto.
    - intros H. apply field_in in H as (n & Hn & En). apply str_eqb_eq in En. eauto. }
  split; [apply Hi|]. intros (n & Hn & E). destruct (Hf n t Hn E) as (t' & Et). rewrite Et. f_equal. destruct (Hi t' Et) as (m & Hm & Em). eapply Hu; eauto. congruence.
Qed.
Lemma leaves_ok t : forall p k, wft t = true -> ((exists t', resolve t p = Some t' /\ fits t' k = true) <-> exists d, In (d, k) (leaves t) /\ Forall2 same_key d p).
Proof.
  intros p. revert t. induction p as [|x p IH]; intros t k Hw.
  - cbn [resolve]. split.
    + intros (t' & E & F). injection E as <-. exists []. split; [|constructor]. destruct t, k; cbn in F; try discriminate; cbn; auto.
    + intros (d & Hd & F). inversion F; subst d. exists t. split; [reflexivity|].
      destruct t; cbn in Hd; try (destruct Hd as [Hd|[]]; injection Hd as <-; reflexivity).
      * destruct Hd.
      * destruct Hd as [Hd|Hd]; [injection Hd as <-; reflexivity|]. apply in_map_iff in Hd as (? & C & _). discriminate.
      * destruct Hd as [Hd|Hd]; [injection Hd as <-; reflexivity|]. apply in_flat_map in Hd as (? & _ & Hd). apply in_map_iff in Hd as (? & C & _). discriminate.
  - destruct t as [| | | | |t|fs].
    1-5: split; [intros (t' & E & _); discriminate E|intros (d & Hd & F); cbn in Hd; try (destruct Hd as [Hd|[]]; injection Hd as <- <-; inversion F); destruct Hd].
    + cbn [resolve wft] in *. rewrite (IH t k Hw). cbn [leaves]. split; intros (d & Hd & F).
      * exists (None :: d). split; [|constructor; [exact I|exact F]]. right. apply in_map_iff. exists (d, k). auto.
      * destruct Hd as [Hd|Hd]; [injection Hd as <- <-; inversion F|]. apply in_map_iff in Hd as ([d' k'] & E & Hd). injection E as <- <-. inversion F; subst. eauto.
    + cbn [wft] in Hw. apply andb_true_iff in Hw as [Hd Hw]. rewrite forallb_forall in Hw. cbn [resolve]. split.
      * intros (t' & E & F). destruct (lookup x fs) as [s|] eqn:El; [|discriminate]. apply (lookup_in _ _ _ Hd) in El as (n & Hn & En).
        destruct (proj1 (IH s k (Hw (n, s) Hn))) as (d & Hi & Fd); [eauto|]. exists (Some (map lower n) :: d). cbn [leaves]. split.
        -- right. apply in_flat_map. exists (n, s). split; [exact Hn|]. apply in_map_iff. exists (d, k). auto.
        -- constructor; [|exact Fd]. cbn. rewrite <- En. rewrite map_map. apply map_ext. intros c. unfold lower. destruct ((65 <=? c) && (c <=? 90)) eqn:Ec; [|rewrite Ec; reflexivity].
           assert ((65 <=? c + 32) && (c + 32 <=? 90) = false) as -> by lia. reflexivity.
      * intros (d & Hi & F). cbn [leaves] in Hi. destruct Hi as [Hi|Hi]; [injection Hi as <- <-; inversion F|]. apply in_flat_map in Hi as ([n s] & Hn & Hi). apply in_map_iff in Hi as ([d' k'] & E & Hi). cbn [fst snd] in *.
        injection E as <- <-. inversion F as [|? ? ? ? Hk Fd]; subst. assert (El : lookup x fs = Some s).
        { apply (lookup_in _ _ _ Hd). exists n. split; [exact Hn|]. cbn in Hk. rewrite <- Hk, map_map. apply map_ext. intros c. unfold lower. destruct ((65 <=? c) && (c <=? 90)) eqn:Ec; [|rewrite Ec; reflexivity].
           assert ((65 <=? c + 32) && (c + 32 <=? 90) = false) as -> by lia. reflexivity. }
        rewrite El. apply (IH s k' (Hw (n, s) Hn)). eauto.
Qed.
Definition kind_eqb (a b : kind) : bool := match a, b with KStr, KStr | KBool, KBool | KInt, KInt | KList, KList | KTable, KTable => true | _, _ => false end.
Definition name_eqb (a b : option str) : bool := match a, b with Some x, Some y => str_eqb x y | None, None => true | _, _ => false end.
Fixpoint names_eqb (a b : list (option str)) : bool := match a, b with x :: a', y :: b' => name_eqb x y && names_eqb a' b' | [], [] => true | _, _ => false end.
Definition set_eqb (a b : list (option str) * kind) : bool := names_eqb (fst a) (fst b) && kind_eqb (snd a) (snd b).
Definition same_set l m : bool := forallb (fun x => existsb (set_eqb x) m) l && forallb (fun x => existsb (set_eqb x) l) m.
Lemma names_eqb_eq a : forall b, names_eqb a b = true -> a = b.
Proof.
  induction a as [|x a IH]; destruct b as [|y b]; cbn; try discriminate; [reflexivity|]. intros H. apply andb_true_iff in H as [H1 H2]. apply IH in H2. subst b.
  destruct x, y; cbn in H1; try discriminate; [apply str_eqb_eq in H1; subst|]; reflexivity.
Qed.
Lemma set_eqb_eq a b : set_eqb a b = true -> a = b.
Proof.
  destruct a as [a k], b as [b k']. unfold set_eqb. cbn [fst snd]. intros H. apply andb_true_iff in H as [H1 H2]. apply names_eqb_eq in H1. subst b.
  destruct k, k'; cbn in H2; try discriminate; reflexivity.
Qed.
Lemma same_set_ok l m : same_set l m = true -> forall x, In x l <-> In x m.
Proof.
  unfold same_set. intros H. apply andb_true_iff in H as [H1 H2]. rewrite forallb_forall in H1, H2.
  assert (G : forall l m, (forall x, In x l -> existsb (set_eqb x) m = true) -> incl l m).
  { clear. intros l m H x Hx. specialize (H x Hx). apply existsb_exists in H as (y & Hy & E). apply set_eqb_eq in E. subst y. exact Hy. }
  intros x. split; apply G; assumption.
Qed.
(** A setting is accepted exactly when it is in the list; any other key, and a value of another kind, makes the file incorrect. *)
Theorem C59_settings p k : (exists t, resolve config_ty p = Some t /\ fits t k = true) <-> exists d, In (d, k) settings /\ Forall2 same_key d p.
Proof.
  rewrite (leaves_ok config_ty p k ltac:(vm_compute; reflexivity)).
  assert (G : forall x, In x (leaves config_ty) <-> In x settings); [|split; intros (d & Hd & F); exists d; (split; [apply G; exact Hd|exact F])].
  assert (H1 : same_set (leaves config_ty) settings = true) by (vm_compute; reflexivity).
  intros x. apply same_set_ok. exact H1.
Qed.
Print Assumptions C59_settings.
Theorem C59_correct_settings toml s : correct toml s <-> exists es, toml s = Some es /\ forall p k, In (p, k) es -> exists d, In (d, k) settings /\ Forall2 same_key d p.
Proof. unfold correct. split; intros (es & E & H); exists es; (split; [exact E|]); intros p k Hp; apply C59_settings; auto. Qed.
Print Assumptions C59_correct_settings.

(** The hypotheses are met. *)
Definition x_path (l : list str) : str := join (bs "/") l.
Definition x_env : env := mkEnv None (Some (bs "/home/u/.config")) (Some (bs "/home/u")).
Example ex59 : exists fs', load x_path simple_toml true x_env (fun _ => Missing) = (Ok (Some default_config), fs') /\
  fst (load x_path simple_toml true x_env fs') = Error.
Proof.
  destruct (C59_first_start x_path simple_toml eq_refl x_env (fun _ => Missing) _ _ eq_refl) as (fs' & H & _); [reflexivity|].
  exists fs'. split; [exact H|]. eapply C59_second_start_refuted; [reflexivity|reflexivity|reflexivity|exact H].
Qed.
Example ex59b : correct simple_toml (bs "ledger = ""a.ledger""").
Proof. apply correct_iff. vm_compute. reflexivity. Qed.
