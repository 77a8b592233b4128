(** * PosProps: C97, what the position in an error message means. *)
From Verif Require Import Base Utf8 Dec PriceModel BookModel BookSpec OpsModel BookProps AccumModel LoaderModel LoaderSpec LoaderProofs4 LoaderProofs5 LoaderProps PosModel PosSpec PosProofs PosProofs2 PosProofs3 PosProofs4.

(** The parser with positions is the loader of C44-C51. *)
Theorem C97_same_loader is_letter is_udigit to_upper ord fs resolve srt depth f :
  load_book is_letter is_udigit to_upper ord fs resolve srt depth f =
  match pos_file is_letter is_udigit to_upper ord fs resolve depth new_builder f [] with
  | PFOk b => build srt b
  | PFErr _ _ => Error
  | PFExit => Panic
  | PFDiverge => Diverge
  end.
Proof. unfold load_book. rewrite <- erase_file. destruct (pos_file _ _ _ _ _ _ _ _ _ _); reflexivity. Qed.
Print Assumptions C97_same_loader.

(** An error with a position names a file that was included (or the file itself), and the position is the one of a
    character of that file of which the message is true - one line too far down when that character is a newline. *)
Theorem C97_position_partial is_letter is_udigit to_upper ord fs resolve depth b f nm g rw cl m bx :
  pos_file is_letter is_udigit to_upper ord fs resolve depth b f nm = PFErr (At g rw cl m) bx ->
  reaches to_upper fs resolve f g /\
  exists bytes n ln cn before, fs g = Some bytes /\ says_at (decode bytes) n ln cn before rw cl m.
Proof. apply file_at. Qed.
Print Assumptions C97_position_partial.

(** When files do not include one another in a circle: an error in the file itself is there whatever follows the character
    at the position, and the lines before its line load without an error. *)
Theorem C97_first_error_partial is_letter is_udigit to_upper ord fs resolve (rank : str -> nat) depth b f nm rw cl m bx :
  (forall f g, names to_upper fs resolve f g -> (rank g < rank f)%nat) -> unicode_ok is_letter is_udigit to_upper ->
  pos_file is_letter is_udigit to_upper ord fs resolve depth b f nm = PFErr (At f rw cl m) bx ->
  exists bytes n ln cn before, fs f = Some bytes /\ says_at (decode bytes) n ln cn before rw cl m /\
    (forall fs' bytes', (forall g, g <> f -> fs' g = fs g) -> fs' f = Some bytes' -> (n < length (decode bytes))%nat ->
       firstn (n + 1) (decode bytes') = firstn (n + 1) (decode bytes) ->
       pos_file is_letter is_udigit to_upper ord fs' resolve depth b f nm = PFErr (At f rw cl m) bx) /\
    (forall fs' bytes', (forall g, g <> f -> fs' g = fs g) -> fs' f = Some bytes' -> decode bytes' = before ->
       exists b', pos_file is_letter is_udigit to_upper ord fs' resolve depth b f nm = PFOk b').
Proof. intros Hr Hu H. exact (file_error is_letter is_udigit to_upper ord resolve fs rank Hr Hu depth b f nm rw cl m bx H). Qed.
Print Assumptions C97_first_error_partial.

(** An error about an unbalanced transaction names its date and payee (but no position): in the builder that is left, the
    postings of that transaction do not sum to zero. *)
Theorem C97_unbalanced_partial is_letter is_udigit to_upper ord fs resolve depth f g d p b :
  pos_file is_letter is_udigit to_upper ord fs resolve depth new_builder f [] = PFErr (NoPos g (Unbalanced d p)) b ->
  (exists calls, bsteps new_builder calls = Ok b) /\ exists c, total (in_trans d p c) (bu_post b) <> 0%Qc.
Proof.
  intros H. pose proof (file_unbalanced is_letter is_udigit to_upper ord resolve fs depth new_builder f [] (ex_intro _ [] eq_refl)) as U. rewrite H in U. exact U.
Qed.
Print Assumptions C97_unbalanced_partial.

Definition x_pos (files : list (str * str)) (f : str) : pfres := pos_file x_letter digit upc x_order (x_fs files) x_join 5 new_builder f [].
Definition x_text (r : pfres) : option str := match r with PFErr (At f rw cl m) _ => Some (at_text f rw cl m) | _ => None end.
Definition e_inc : str := bs "2024/01/02 Shop" ++ nl ++ bs "  A  10 GBP" ++ nl ++ bs "  B" ++ nl ++ bs "2024/01-03 Shop" ++ nl.
Definition e_main : str := bs "; journal" ++ nl ++ bs "include inc" ++ nl.
(** A bad character in an included file: its file, line and column. *)
Example C97_nonvacuous : x_text (x_pos [(bs "main", e_main); (bs "inc", e_inc)] (bs "main")) = Some (bs "parsing failure: inc: 4:8: expected '/', got '-'").
Proof. vm_compute. reflexivity. Qed.
(** The other messages. *)
Example C97_messages : let says s := x_text (x_pos [(bs "m", s)] (bs "m")) in
  says (bs "2024/1234/02 Shop") = Some (bs "parsing failure: m: 1:10: expected number digit length of min:max of 1:2, found 4 digits") /\
  says (bs "alias x Asset") = Some (bs "parsing failure: m: 1:9: expected '=' after alias, got 'A'") /\
  says (bs "alias x =  ") = Some (bs "parsing failure: m: 1:12: expected account for alias, got empty account") /\
  says (nl ++ bs "hello") = Some (bs "parsing failure: m: 2:6: expected include or alias").
Proof. vm_compute. repeat split; reflexivity. Qed.
Lemma e_rank : forall f g, names upc (x_fs [(bs "inc", e_inc)]) x_join f g -> (0 < 0)%nat.
Proof.
  intros f g Hn. exfalso. pose proof Hn as (by' & l & name & Hf & _). unfold x_fs in Hf. apply (aget_In _ str_eqb_eq) in Hf. destruct Hf as [Hf|[]]. apply (f_equal fst) in Hf. cbn [fst] in Hf. subst f.
  revert g Hn. apply (no_include upc _ x_join (bs "inc") e_inc); [reflexivity|].
  assert (E : forallb (fun c => negb (upc c =? 73)) (decode e_inc) = true) by (vm_compute; reflexivity). rewrite forallb_forall in E. apply Forall_forall. intros c Hc. specialize (E c Hc). apply Bool.negb_true_iff, Z.eqb_neq in E. exact E.
Qed.
Example C97_first_error_nonvacuous : exists b m, (forall f g, names upc (x_fs [(bs "inc", e_inc)]) x_join f g -> ((fun _ => 0%nat) g < (fun _ => 0%nat) f)%nat) /\ unicode_ok x_letter digit upc /\
  x_pos [(bs "inc", e_inc)] (bs "inc") = PFErr (At (bs "inc") 4 8 m) b.
Proof. do 2 eexists. split; [exact e_rank|]. split; [exact x_unicode|]. vm_compute. reflexivity. Qed.

(** REFUTED: the position is not always that of the offending character, and not every error has one.
    1. A currency with a missing quote, in the second of three lines, is reported in line 3.
    2. An unbalanced transaction of an included file is noticed at the next header, and blamed on the file of that header.
    3. An unbalanced transaction at the end is a crash. *)
Definition e_quote : str := bs "2024/01/02 Shop" ++ nl ++ [32; 65; 32; 49; 48; 32; 34; 71; 66; 80] ++ nl ++ bs " B" ++ nl.
Definition e_unb : str := bs "2024/01/02 Shop" ++ nl ++ bs " A 10 GBP" ++ nl.
Definition e_after : str := bs "include inc" ++ nl ++ bs "2024/01/03 Bakery" ++ nl ++ bs " A 1 GBP" ++ nl ++ bs " B" ++ nl.
Theorem C97_position_refuted :
  x_text (x_pos [(bs "m", e_quote)] (bs "m")) = Some (bs "parsing failure: m: 3:0: expected '""', got '" ++ nl ++ bs "'") /\
  place e_quote 26 2 11 (bs "2024/01/02 Shop" ++ nl) /\ char_at e_quote 26 = 10 /\
  (exists b, x_pos [(bs "m", e_after); (bs "inc", e_unb)] (bs "m") = PFErr (NoPos (bs "m") (Unbalanced 20240102 (bs "Shop"))) b) /\
  x_load [(bs "inc", e_unb)] (bs "inc") = Panic.
Proof.
  split; [vm_compute; reflexivity|]. split; [exists [bs "2024/01/02 Shop"], [32; 65; 32; 49; 48; 32; 34; 71; 66; 80]; repeat split; try (vm_compute; reflexivity); repeat (constructor; try discriminate)|].
  split; [reflexivity|]. split; [eexists; vm_compute; reflexivity|]. vm_compute. reflexivity.
Qed.
Print Assumptions C97_position_refuted.
