(** * BookOpProps: C55 (operations and macros) and C67 (currencies of prices). *)
From Verif Require Import Base Dec Regex DateModel PriceModel BookModel BookSpec BookProofs OpsModel OpsProofs BookProps
  BookOpModel BookOpSpec BookOpProofs BookOpProofs2.

(** ** C55: an operation text means what the documentation says; anything else is an error that leaves the book alone *)
Theorem C55_operation : forall srt compile parse_float today ploop table n b op, table op = None ->
  (forall a, means parse_float today op a ->
     book_ops srt compile parse_float today ploop table (S n) [op] b =
       (do b' <- perform srt compile today ploop a b; Ok (b', None))) /\
  ((forall a, ~ means parse_float today op a) ->
     book_ops srt compile parse_float today ploop table (S n) [op] b = Ok (b, Some op)) /\
  ((exists a, means parse_float today op a) \/ (forall a, ~ means parse_float today op a)).
Proof.
  intros srt compile parse_float today ploop table n b op Ht.
  assert (E : book_ops srt compile parse_float today ploop table (S n) [op] b =
              (do (b', e) <- plain_op srt compile parse_float today ploop b op; Ok (b', e))).
  { unfold book_ops. cbn [each book_op]. rewrite Ht. destruct (plain_op _ _ _ _ _ b op) as [[b' [x|]]| | |]; reflexivity. }
  rewrite E. split; [|split].
  - intros a Ha. rewrite (means_plain srt compile parse_float today ploop op a b Ha). destruct (perform _ _ _ _ _ _); reflexivity.
  - intros H. now rewrite malformed_plain.
  - destruct (plain_cases srt compile parse_float today ploop op b) as [H|H]; [now left|right]. intros a Ha.
    rewrite (means_plain srt compile parse_float today ploop op a b Ha) in H. destruct (perform _ _ _ _ _ _); discriminate H.
Qed.
Print Assumptions C55_operation.

(** ** C55: left to right; the first malformed operation is the one reported, with the book as the operations before it
    left it *)
Theorem C55_left_to_right : forall srt compile parse_float today ploop table n ops1 ops2 b,
  book_ops srt compile parse_float today ploop table n (ops1 ++ ops2) b =
  match book_ops srt compile parse_float today ploop table n ops1 b with
  | Ok (b', None) => book_ops srt compile parse_float today ploop table n ops2 b'
  | r => r
  end.
Proof.
  intros. unfold book_ops. rewrite each_app. destruct (each _ ops1 b) as [[b' [x|]]| | |]; reflexivity.
Qed.
Print Assumptions C55_left_to_right.
Theorem C55_first_error : forall srt compile parse_float today ploop n ops b b' op,
  book_ops srt compile parse_float today ploop no_macros (S n) ops b = Ok (b', Some op) <->
  exists before after, ops = before ++ op :: after /\
    book_ops srt compile parse_float today ploop no_macros (S n) before b = Ok (b', None) /\
    forall a, ~ means parse_float today op a.
Proof.
  intros srt compile parse_float today ploop n ops b b' op. rewrite no_macros_plain, first_error. split.
  - intros (l1 & l2 & E & H1 & H2). exists l1, l2. split; [exact E|]. split; [now rewrite no_macros_plain|]. intros a Ha.
    rewrite (means_plain srt compile parse_float today ploop op a b' Ha) in H2. destruct (perform _ _ _ _ _ _); discriminate H2.
  - intros (l1 & l2 & E & H1 & H2). exists l1, l2. split; [exact E|]. split; [now rewrite no_macros_plain in H1|].
    now apply malformed_plain.
Qed.
Print Assumptions C55_first_error.

(** ** C55: a macro is its expansion *)
Theorem C55_macro_is_expansion : forall srt compile parse_float today ploop table ops l, expands table ops l ->
  exists n0, forall n b, (n0 <= n)%nat ->
    book_ops srt compile parse_float today ploop table n ops b = book_ops srt compile parse_float today ploop no_macros 1 l b.
Proof.
  intros srt compile parse_float today ploop table ops l H. destruct (expand_run srt compile parse_float today ploop table ops l H) as [n0 E].
  exists n0. intros n b Hn. now rewrite E, no_macros_plain.
Qed.
Print Assumptions C55_macro_is_expansion.

(** ** C55: macros that do not lead back to themselves have an expansion, and once the nesting allowed suffices the
    result does not depend on it *)
Theorem C55_macros_terminate_partial : forall table, acyclic table -> forall ops, exists l, expands table ops l.
Proof. exact acyclic_expands. Qed.
Print Assumptions C55_macros_terminate_partial.
Theorem C55_nesting_irrelevant : forall srt compile parse_float today ploop table n m ops b, (n <= m)%nat ->
  book_ops srt compile parse_float today ploop table n ops b <> Diverge ->
  book_ops srt compile parse_float today ploop table m ops b = book_ops srt compile parse_float today ploop table n ops b.
Proof. exact book_ops_mono. Qed.
Print Assumptions C55_nesting_irrelevant.

(** ** C55: operations whose regular expressions compile never crash, and the transactions are those of a book made with
    the library operations (so everything proved of such books holds) *)
Theorem C55_no_crash_partial : forall srt compile parse_float today ploop table ops l, sort_ok is_less srt ->
  expands table ops l ->
  (forall op a s, In op l -> means parse_float today op a -> pattern_of a = Some s -> compile s <> None) ->
  forall b, reachable srt b ->
  exists n0, forall n, (n0 <= n)%nat ->
  exists b' e b0, book_ops srt compile parse_float today ploop table n ops b = Ok (b', e) /\ reachable srt b0 /\ same_trans b' b0.
Proof.
  intros srt compile parse_float today ploop table ops l Hs He Hc b Hb.
  destruct (expand_run srt compile parse_float today ploop table ops l He) as [n0 E]. exists n0. intros n Hn. rewrite (E n Hn b).
  destruct (each_sound srt Hs compile parse_float today ploop l Hc b) as (c & e & Ec & b0 & R & S); [exists b; split; [exact Hb|now split]|].
  exists c, e, b0. split; [exact Ec|]. split; [exact R|exact S].
Qed.
Print Assumptions C55_no_crash_partial.

(** *** Concrete case: regular expressions that are plain texts; "(" does not compile. *)
Definition x_re (s : str) : option regexp :=
  if str_eqb s [40] then None else Some (mkRe (fun t => str_eqb t s) (fun t r => if str_eqb t s then r else t)).
Definition x_float (s : str) : option Qc := if str_eqb s (bs "0.5") then Some (Q2Qc (1 # 2)) else None.
Definition x_macros (s : str) : option (list str) :=
  if str_eqb s (bs "base") then Some [bs "since=2024-01-01"; bs "map=/Expense:Car/Car/"]
  else if str_eqb s (bs "all") then Some [bs "base"; bs "combine=YEARLY"; bs "base"] else None.
Definition x_ploop (f : pair -> pair) (m : pbook) : pbook := m.
Definition x_ops := book_ops xsort x_re x_float 20240301 x_ploop.
Example C55_nonvacuous :
  match x_ops x_macros 5 [bs "all"; bs "move=/Car/Assets:Car/0.5/"] ex_book with
  | Ok (b, None) => map (map view) (bk_trans b)
  | _ => [] end =
  [ [ (20240101, [], bs "Assets:Car", bs "USD", 50, 50); (20240101, [], bs "Assets:Cash", bs "GBP", 35, 35);
      (20240101, [], bs "Assets:Cash", bs "USD", -100, -100); (20240101, [], bs "Car", bs "USD", 50, 50);
      (20240101, [], bs "Expense:Food", bs "GBP", 15, 15); (20240101, [], bs "Income", bs "GBP", -50, -50) ] ] /\
  acyclic x_macros /\
  expands x_macros [bs "all"] [bs "since=2024-01-01"; bs "map=/Expense:Car/Car/"; bs "combine=YEARLY"; bs "since=2024-01-01"; bs "map=/Expense:Car/Car/"] /\
  means x_float 20240301 (bs "move=/Car/Assets:Car/0.5/") (AMove (bs "Car") (bs "Assets:Car") (Q2Qc (1 # 2))) /\
  x_ops x_macros 5 [bs "combine=weekly"; bs "all"] ex_book = Ok (ex_book, Some (bs "combine=weekly")) /\
  reachable xsort ex_book.
Proof.
  split; [vm_compute; reflexivity|]. split.
  { exists (fun s => if str_eqb s (bs "all") then 1%nat else 0%nat). intros m body x H Hx Nx. unfold x_macros in H.
    destruct (str_eqb m (bs "base")) eqn:E1; [injection H as <-; cbn in Hx; destruct Hx as [<-|[<-|[]]]; exfalso; apply Nx; reflexivity|].
    destruct (str_eqb m (bs "all")) eqn:E2; [|discriminate H]. injection H as <-. cbn in Hx.
    destruct Hx as [<-|[<-|[<-|[]]]]; [cbn; lia|exfalso; apply Nx; reflexivity|cbn; lia]. }
  split.
  { change [bs "since=2024-01-01"; bs "map=/Expense:Car/Car/"; bs "combine=YEARLY"; bs "since=2024-01-01"; bs "map=/Expense:Car/Car/"]
      with (([bs "since=2024-01-01"; bs "map=/Expense:Car/Car/"] ++ bs "combine=YEARLY" :: [bs "since=2024-01-01"; bs "map=/Expense:Car/Car/"] ++ []) ++ []).
    eapply e_macro; [reflexivity| |constructor].
    eapply e_macro; [reflexivity|apply e_plain; [reflexivity|apply e_plain; [reflexivity|constructor]]|].
    apply e_plain; [reflexivity|]. eapply e_macro; [reflexivity|apply e_plain; [reflexivity|apply e_plain; [reflexivity|constructor]]|constructor]. }
  split.
  { apply (m_move x_float 20240301 (bs "Car") (bs "Assets:Car") (bs "0.5")); try (split; [discriminate|cbn; intuition discriminate]).
    - apply numeric_iff. split; [discriminate|]. repeat (apply Forall_cons; [reflexivity|]). apply Forall_nil.
    - reflexivity. }
  split; [reflexivity|exact ex_reach].
Qed.

(** ** C55 refuted: a macro that mentions itself never comes back (in Go the stack overflows and the process dies) *)
Theorem C55_macro_recursion_refuted : forall srt compile parse_float today ploop table m rest b,
  table m = Some (m :: rest) -> forall n, book_ops srt compile parse_float today ploop table n [m] b = Diverge.
Proof.
  intros srt compile parse_float today ploop table m rest b H.
  assert (forall n, book_op srt compile parse_float today ploop table n b m = Diverge) as D.
  { induction n as [|n IH]; [reflexivity|]. cbn [book_op]. rewrite H. cbn [each]. now rewrite IH. }
  intros n. unfold book_ops. cbn [each]. now rewrite D.
Qed.
Print Assumptions C55_macro_recursion_refuted.
(** ** C55 refuted: an operation whose regular expression is invalid crashes instead of yielding an error *)
Theorem C55_invalid_pattern_refuted : forall srt compile parse_float today ploop table n b s r,
  part s -> part r -> compile s = None -> table (bs "map=/" ++ s ++ sl ++ r ++ sl) = None ->
  book_ops srt compile parse_float today ploop table (S n) [bs "map=/" ++ s ++ sl ++ r ++ sl] b = Panic.
Proof.
  intros srt compile parse_float today ploop table n b s r Ps Pr Hc Ht.
  destruct (C55_operation srt compile parse_float today ploop table n b _ Ht) as [H _].
  etransitivity; [exact (H _ (m_map parse_float today s r Ps Pr))|]. unfold perform. cbn [pattern_of]. now rewrite Hc.
Qed.
Print Assumptions C55_invalid_pattern_refuted.
Example C55_refuted_instances :
  (forall n, x_ops (fun s => if str_eqb s (bs "a") then Some [bs "a"] else None) n [bs "a"] ex_book = Diverge) /\
  x_ops x_macros 1 [bs "map=/(/x/"] ex_book = Panic.
Proof.
  split; [|reflexivity]. intros n. unfold x_ops. eapply C55_macro_recursion_refuted. reflexivity.
Qed.

(** ** C67: when the renaming does not rename its own results, then in whatever order the loop visits the map, each
    price list that is left is the unchanged list of a pair renamed to this one, and for every pair there is a list under
    its new name. *)
Theorem C67_rename_prices_partial : forall re tmpl b ploop,
  let g := fun c => if rx_match re c then rx_repl re c tmpl else c in
  (forall c, g (g c) = g c) ->
  NoDup (map fst (bk_prices b)) ->
  loop_prices (fun k => (g (fst k), g (snd k))) (bk_prices b) (ploop (fun k => (g (fst k), g (snd k))) (bk_prices b)) ->
  let after := bk_prices (regex_ccy ploop re tmpl b) in
  (forall k l, aget pair_eqb k after = Some l ->
     exists u c, k = (g u, g c) /\ aget pair_eqb (u, c) (bk_prices b) = Some l) /\
  (forall u c, aget pair_eqb (u, c) (bk_prices b) <> None -> aget pair_eqb (g u, g c) after <> None) /\
  (* and if no two pairs get the same name, it is exactly the renamed map *)
  ((forall u c u' c', aget pair_eqb (u, c) (bk_prices b) <> None -> aget pair_eqb (u', c') (bk_prices b) <> None ->
      g u = g u' -> g c = g c' -> u = u' /\ c = c') ->
   forall u c l, aget pair_eqb (u, c) (bk_prices b) = Some l -> aget pair_eqb (g u, g c) after = Some l).
Proof.
  intros re tmpl b ploop g Hg ND HL after.
  set (f := fun k : pair => (g (fst k), g (snd k))) in *.
  assert (idem : forall k, f (f k) = f k) by (intros [u c]; unfold f; cbn [fst snd]; now rewrite !Hg).
  destruct (loop_result f idem (bk_prices b) _ ND HL) as [R1 R2].
  change after with (ploop f (bk_prices b)). split; [|split].
  - intros k l Hk. destruct (R1 k l Hk) as ([u c] & <- & G). exists u, c. now split.
  - intros u c Hk. apply (R2 (u, c)). exact Hk.
  - intros inj u c l G. destruct (aget pair_eqb (g u, g c) (ploop f (bk_prices b))) as [l'|] eqn:E.
    + destruct (R1 _ _ E) as ([u' c'] & Ef & G'). injection Ef as E1 E2.
      destruct (inj u' c' u c) as [-> ->]; [congruence|congruence|assumption|assumption|]. congruence.
    + exfalso. apply (R2 (u, c)); [congruence|exact E].
Qed.
Print Assumptions C67_rename_prices_partial.
(** The loop can always be completed. *)
Theorem C67_loop_completes : forall f m, NoDup (map fst m) -> exists m', loop_prices f m m'.
Proof. exact loop_prices_exists. Qed.
Print Assumptions C67_loop_completes.

Definition ccy_calls : list bcall :=
  [ CPrice 20240101 (bs "US") (bs "GBP") (qz 2); CPrice 20240102 (bs "$") (bs "GBP") (qz 3); CPrice 20240103 (bs "EUR") (bs "GBP") (qz 4) ].
Definition ccy_prices : pbook := build_prices (match bsteps new_builder ccy_calls with Ok b => bu_prices b | _ => [] end).
Definition pview (m : pbook) := map (fun '(k, l) => (k, map (fun p => (pr_date p, Qnum (this (pr_val p)))) l)) m.
Example C67_prices : pview ccy_prices =
  [ ((bs "US", bs "GBP"), [(20240101, 2)]); ((bs "$", bs "GBP"), [(20240102, 3)]); ((bs "EUR", bs "GBP"), [(20240103, 4)]) ].
Proof. vm_compute. reflexivity. Qed.
(** "$" alone becomes "USD": the hypotheses hold *)
Definition one_name (c : str) : str := if str_eqb c (bs "$") then bs "USD" else c.
Example C67_nonvacuous : (forall c, one_name (one_name c) = one_name c) /\ NoDup (map fst ccy_prices) /\
  exists m', loop_prices (new_pair one_name) ccy_prices m'.
Proof.
  assert (ND : NoDup (map fst ccy_prices)).
  { change (map fst ccy_prices) with [(bs "US", bs "GBP"); (bs "$", bs "GBP"); (bs "EUR", bs "GBP")].
    repeat constructor; cbn; intuition discriminate. }
  split; [|split; [exact ND|exact (loop_prices_exists _ _ ND)]].
  intros c. unfold one_name. destruct (str_eqb c (bs "$")) eqn:E; [reflexivity|now rewrite E].
Qed.

(** ** C67 refuted: two names that become the same lose prices, which ones depends on the order of the map *)
Definition two_names (c : str) : str := if str_eqb c (bs "$") || str_eqb c (bs "US") then bs "USD" else c.
Theorem C67_order_refuted : exists m1 m2,
  loop_prices (new_pair two_names) ccy_prices m1 /\ loop_prices (new_pair two_names) ccy_prices m2 /\
  (forall c, two_names (two_names c) = two_names c) /\
  pview m1 = [ ((bs "EUR", bs "GBP"), [(20240103, 4)]); ((bs "USD", bs "GBP"), [(20240102, 3)]) ] /\
  pview m2 = [ ((bs "EUR", bs "GBP"), [(20240103, 4)]); ((bs "USD", bs "GBP"), [(20240101, 2)]) ].
Proof.
  eexists. eexists. split; [|split; [|split]].
  - unfold loop_prices. eapply (pl_move _ _ _ _ _ (bs "US", bs "GBP")); [vm_compute; reflexivity|intros []|discriminate|].
    eapply (pl_move _ _ _ _ _ (bs "$", bs "GBP")); [vm_compute; reflexivity|intros []|discriminate|].
    eapply (pl_keep _ _ _ _ _ (bs "EUR", bs "GBP")); [vm_compute; reflexivity|intros []|reflexivity|]. apply pl_done.
  - unfold loop_prices. eapply (pl_move _ _ _ _ _ (bs "$", bs "GBP")); [vm_compute; reflexivity|intros []|discriminate|].
    eapply (pl_move _ _ _ _ _ (bs "US", bs "GBP")); [vm_compute; reflexivity|intros []|discriminate|].
    eapply (pl_keep _ _ _ _ _ (bs "EUR", bs "GBP")); [vm_compute; reflexivity|intros []|reflexivity|]. apply pl_done.
  - intros c. unfold two_names. destruct (str_eqb c (bs "$") || str_eqb c (bs "US")) eqn:E; [reflexivity|now rewrite E].
  - split; vm_compute; reflexivity.
Qed.
Print Assumptions C67_order_refuted.
(** ** C67 refuted: a currency may be renamed more than once: S to AS, and AS - an entry created during the loop - to AAS *)
Definition again (c : str) : str := if existsb (Z.eqb 83) c then 65 :: c else c.
Definition s_prices : pbook := build_prices (match bsteps new_builder [CPrice 20240101 (bs "S") (bs "E") (qz 2)] with Ok b => bu_prices b | _ => [] end).
Theorem C67_once_refuted : exists m1 m2,
  loop_prices (new_pair again) s_prices m1 /\ loop_prices (new_pair again) s_prices m2 /\
  map fst m1 = [(bs "AS", bs "E")] /\ map fst m2 = [(bs "AAS", bs "E")].
Proof.
  eexists. eexists. split; [|split].
  - unfold loop_prices. eapply (pl_move _ _ _ _ _ (bs "S", bs "E")); [vm_compute; reflexivity|intros []|discriminate|]. apply pl_done.
  - unfold loop_prices. eapply (pl_move _ _ _ _ _ (bs "S", bs "E")); [vm_compute; reflexivity|intros []|discriminate|].
    eapply (pl_move _ _ _ _ _ (bs "AS", bs "E")); [vm_compute; reflexivity|intros []|discriminate|]. apply pl_done.
  - split; vm_compute; reflexivity.
Qed.
Print Assumptions C67_once_refuted.
