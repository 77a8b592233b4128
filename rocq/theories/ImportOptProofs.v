(** * ImportOptProofs: lemmas for C117. *)
From Verif Require Import Base Utf8 JsonModel AccumModel CfgModel ConvertModel ConfigModel ScriptModel ImportModel OptionsModel OptionsSpec OptionsProofs ImportOptModel ImportOptSpec.

(** Fields that no file sets. *)
Definition over_ok (over : conf -> conf) : Prop := forall file c p, over (fold_left store_value file c) p = fold_left store_value file (over c) p.
Lemma fold_store_ext file : forall c c', (forall p, c p = c' p) -> forall p, fold_left store_value file c p = fold_left store_value file c' p.
Proof.
  induction file as [|e file IH]; intros c c' H p; [apply H|]. cbn [fold_left]. apply IH. intros q. unfold store_value. destruct (field_path config_ty (fst e)) as [k|]; [|apply H]. unfold set_field. destruct (path_eqb k q); [reflexivity|apply H].
Qed.
Lemma over_step over : (forall k v c p, field_path config_ty k <> None -> over (store_value c (k, v)) p = store_value (over c) (k, v) p) -> over_ok over.
Proof.
  intros H file. induction file as [|[k v] file IH]; intros c p; [reflexivity|]. cbn [fold_left]. rewrite IH. apply fold_store_ext. intros q.
  destruct (field_path config_ty k) eqn:E; [apply H; congruence|]. unfold store_value. cbn [fst]. rewrite E. reflexivity.
Qed.
Section Own.
  Variable fold : str -> str -> bool.
  Variable parse_int : str -> option Z.
  Variable over : conf -> conf.
  Hypothesis Hover : over_ok over.
  Lemma run_own lang tab opts letter : Forall2 (linked (over (builtin lang))) (app_flags ++ tab) opts -> NoDup (map f_name (app_flags ++ tab)) -> NoDup (map f_field (app_flags ++ tab)) ->
    (forall x, by_letter (app_flags ++ tab) x = by_name (app_flags ++ tab) (letter x)) ->
    forall line args first file c, written (is_switch opts) letter line args -> decode_config first file (builtin lang) = Ok c ->
    (Forall (usable fold parse_int opts) line -> exists c', parse_args fold parse_int (app_flags ++ tab) args (over c) = Ok (c', words line) /\ apply_all fold parse_int (app_flags ++ tab) line (over c) = Ok c' /\
       forall f o, In f (app_flags ++ tab) -> linked (over (builtin lang)) f o -> in_effect fold parse_int o line file (c' (f_field f))) /\
    (~ Forall (usable fold parse_int opts) line -> parse_args fold parse_int (app_flags ++ tab) args (over c) = Error).
  Proof.
    intros Hlink Hn Hf Hlet line args first file c Hw Hc.
    assert (Hc2 : exists c2, decode_config first file (over (builtin lang)) = Ok c2 /\ forall p, over c p = c2 p).
    { unfold decode_config in *. destruct (existsb ill_typed (keys_of file)); [discriminate|]. destruct (negb first && existsb no_field (keys_of file)); [discriminate|]. injection Hc as <-. eexists. split; [reflexivity|]. intros p. apply Hover. }
    destruct Hc2 as (c2 & Hc2 & He).
    assert (Hp : parse_args fold parse_int (app_flags ++ tab) args (over c) = do c' <- apply_all fold parse_int (app_flags ++ tab) line (over c); Ok (c', words line)).
    { eapply parse_written; [|exact Hlet|exact Hw]. intros n f H. exact (linked_switch _ _ _ Hn Hlink n f H). }
    rewrite Hp. split.
    - intros Hu. destruct (apply_usable fold parse_int _ _ _ line Hn Hlink Hu (over c)) as (c' & Ha). exists c'. rewrite Ha. split; [reflexivity|]. split; [reflexivity|].
      intros f o Hin Hlo. exact (effect fold parse_int _ _ f o line file first c2 (over c) c' Hn Hf Hin Hlo Hc2 (He _) Ha).
    - intros Hu. rewrite (apply_unusable fold parse_int _ _ _ line Hn Hlink Hu (over c)). reflexivity.
  Qed.
End Own.

Lemma store_other k v c p q : field_path config_ty k = Some q -> q <> p -> store_value c (k, v) p = c p.
Proof. intros H Hn. unfold store_value. cbn [fst snd]. rewrite H. unfold set_field. rewrite path_eqb_neq by exact Hn. reflexivity. Qed.
Section Scripts.
  Variable order : list (str * sval) -> list (str * sval).
  Variable interp : str -> sval -> str -> script.
  Variable content : str -> option str.
  Lemma has_prefix_ok p : forall s, has_prefix s p = true <-> exists r, s = p ++ r.
  Proof.
    induction p as [|x p IH]; intros l; [destruct l; cbn [has_prefix]; (split; [intros _; eexists; reflexivity|reflexivity])|]. destruct l as [|y l]; cbn [has_prefix]; [split; [discriminate|intros (r & H); discriminate H]|].
    rewrite Bool.andb_true_iff, IH. split.
    - intros (E & r & ->). exists r. apply Z.eqb_eq in E. subst y. reflexivity.
    - intros (r & H). injection H as -> ->. split; [apply Z.eqb_refl|eauto].
  Qed.
  Lemma file_or_str_ok s : code_text content s (file_or_str content s).
  Proof.
    unfold file_or_str. destruct (has_prefix s (bs "file:")) eqn:E.
    - apply has_prefix_ok in E as (r & ->). exact (C_file content r).
    - apply C_text. intros name ->. assert (has_prefix (bs "file:" ++ name) (bs "file:") = true) by (apply has_prefix_ok; eauto). congruence.
  Qed.
  Lemma code_text_only s t : code_text content s t -> file_or_str content s = t.
  Proof.
    intros [name|s' H]; [reflexivity|]. unfold file_or_str. assert (has_prefix s' (bs "file:") = false) as ->; [|reflexivity].
    apply Bool.not_true_iff_false. intros E. apply has_prefix_ok in E as (r & ->). exact (H r eq_refl).
  Qed.
  Lemma script_of_ok r code file : script_for content interp (read_data order) r code file (script_of order interp content r code file).
  Proof.
    unfold script_of. destruct (content file) as [bytes|] eqn:E; [|apply S_unreadable; exact E]. destruct (read_data order r bytes) as [d| | |] eqn:Er; try (eapply S_no_data; [exact E|]; intros d; rewrite Er; discriminate).
    pose proof (file_or_str_ok code) as H. destruct (file_or_str content code) as [sc|]; [eapply S_runs; eauto|eapply S_no_code; eauto].
  Qed.
End Scripts.
