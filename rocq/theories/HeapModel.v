(** * HeapModel: the book with its pointers and shared arrays.

    BookModel.v treats an amount as its value and a slice as its elements. Here an amount is an address ([*big.Rat],
    changed in place by val.Add, val.Mul and bal.Set) and a slice is a window on an array it may share with other
    slices; append writes into the array when there is room. HeapProps.v says when the two agree.

    Modelled as values: the map [b.ccy] and [b.prices] (written by no operation below), the backing array of
    [b.trans] (each book has its own: it is made by Build, Duplicate and FilterTransaction), the rationals in
    [currAmts] and in the map [amts] of compact (private to their owner), strings and dates. *)
From Verif Require Import Base Dec DateModel PriceModel BookModel OpsModel RegisterModel AccumModel.

(** posting.go:9-23 [Posting]: [h_val] and [h_bal] are addresses *)
Record hpost := mkH {
  h_date : Z; h_payee : str; h_tnote : str; h_acct : str; h_ccy : str;
  h_val : nat; h_note : str; h_bal : nat;
  h_level : Z; h_term : str; h_sort : str }.
(** An unused cell of an array: the zero Posting. Its pointers (nil in Go) are never followed. *)
Definition hzero : hpost := mkH 0 [] [] [] [] 0 [] 0 0 [] [].

Definition hset_date (p : hpost) d pay := mkH d pay (h_tnote p) (h_acct p) (h_ccy p) (h_val p) (h_note p) (h_bal p) (h_level p) (h_term p) (h_sort p).
Definition hset_ccy (p : hpost) c := mkH (h_date p) (h_payee p) (h_tnote p) (h_acct p) c (h_val p) (h_note p) (h_bal p) (h_level p) (h_term p) (h_sort p).
Definition hset_acct (p : hpost) a := mkH (h_date p) (h_payee p) (h_tnote p) a (h_ccy p) (h_val p) (h_note p) (h_bal p) 0 a (h_sort p).
Definition hput_acct (p : hpost) a := mkH (h_date p) (h_payee p) (h_tnote p) a (h_ccy p) (h_val p) (h_note p) (h_bal p) (h_level p) (h_term p) (h_sort p).

(** ** Memory: the rationals by address, and the arrays (each a list as long as its capacity). *)
Record mem := mkM { m_rats : list Qc; m_arrs : list (list hpost) }.
(** A slice: array, start, length. Its capacity is the rest of the array. *)
Record slice := mkS { s_arr : nat; s_off : nat; s_len : nat }.

Fixpoint upd {A} (n : nat) (x : A) (l : list A) : list A :=
  match l, n with
  | [], _ => []
  | _ :: l', O => x :: l'
  | y :: l', S n' => y :: upd n' x l'
  end.
Definition rat (rs : list Qc) (a : nat) : Qc := nth a rs 0%Qc.
Definition arr (m : mem) (a : nat) : list hpost := nth a (m_arrs m) [].
Definition cells (m : mem) (s : slice) : list hpost := firstn (s_len s) (skipn (s_off s) (arr m (s_arr s))).
(** Overwrite the cells of array [a] from [off] on with [l]. *)
Definition put (m : mem) (a off : nat) (l : list hpost) : mem :=
  mkM (m_rats m) (upd a (firstn off (arr m a) ++ l ++ skipn (off + length l) (arr m a)) (m_arrs m)).
Definition set_rats (m : mem) (rs : list Qc) : mem := mkM rs (m_arrs m).
(** big.NewRat and the like; make([]Posting, 0, cap) *)
Definition alloc (m : mem) (q : Qc) : mem * nat := (mkM (m_rats m ++ [q]) (m_arrs m), length (m_rats m)).
Definition alloc_arr (m : mem) (l : list hpost) : mem * nat := (mkM (m_rats m) (m_arrs m ++ [l]), length (m_arrs m)).
Definition make_posts (m : mem) (cap : nat) : mem * slice :=
  let '(m, a) := alloc_arr m (repeat hzero cap) in (m, mkS a 0 0).

(** What a reader sees. *)
Definition look (rs : list Qc) (p : hpost) : posting :=
  mkP (h_date p) (h_payee p) (h_tnote p) (h_acct p) (h_ccy p) (rat rs (h_val p)) (h_note p) (rat rs (h_bal p))
      (h_level p) (h_term p) (h_sort p).
Definition look_slice (m : mem) (s : slice) : list posting := map (look (m_rats m)) (cells m s).

(** book.go:12-17 [Book] *)
Record hbook := mkHB { hb_post : slice; hb_trans : list slice; hb_prices : pbook; hb_ccy : list (str * Z) }.
Definition read (m : mem) (b : hbook) : book :=
  mkBook (look_slice m (hb_post b)) (map (look_slice m) (hb_trans b)) (hb_prices b) (hb_ccy b).

(** [ord l] is the order in which sort.Slice arranges [l] (indices into [l]). *)
Definition arrange {A} (d : A) (l : list A) (is : list nat) : list A := map (fun i => nth i l d) is.
Definition p0 : posting := mkP 0 [] [] [] [] 0%Qc [] 0%Qc 0 [] [].
Definition srt_of (ord : list posting -> list nat) (l : list posting) : list posting := arrange p0 l (ord l).

Section Heap.
  Variable ord : list posting -> list nat.
  (** how many unused cells append adds when it moves to a new array of the given length *)
  Variable grow : nat -> nat.

  (** Go's append(s, xs...): in place when the array has room, otherwise in a new array *)
  Definition append (m : mem) (s : slice) (xs : list hpost) : mem * slice :=
    let n := (s_len s + length xs)%nat in
    if (s_off s + n <=? length (arr m (s_arr s)))%nat
    then (put m (s_arr s) (s_off s + s_len s) xs, mkS (s_arr s) (s_off s) n)
    else let '(m', a) := alloc_arr m (cells m s ++ xs ++ repeat hzero (grow n)) in (m', mkS a 0 n).

  (** ** compact (book_compact.go:8-108) *)
  (** book_compact.go:27-30 *)
  Definition hsame_key (a b : hpost) : bool :=
    (h_date a =? h_date b) && str_eqb (h_payee a) (h_payee b) && str_eqb (h_acct a) (h_acct b) && str_eqb (h_ccy a) (h_ccy b).
  (** book_compact.go:20-45: [c] is the array seen through p, [t] is targetIdx, [n] the number of rounds left *)
  Fixpoint hmerge (n i t : nat) (c : list hpost) (rs : list Qc) : list hpost * list Qc * nat :=
    match n with
    | O => (c, rs, t)
    | S n' =>
        let pi := nth i c hzero in
        let pt := nth t c hzero in
        if hsame_key pi pt
        then hmerge n' (S i) t c (upd (h_val pt) (rat rs (h_val pt) + rat rs (h_val pi))%Qc rs)
        else hmerge n' (S i) (S t) (if (S t <? i)%nat then upd (S t) pi c else c) rs
    end.
  (** book_compact.go:50-65 *)
  Fixpoint hdrop (n i t : nat) (c : list hpost) (rs : list Qc) : list hpost * nat :=
    match n with
    | O => (c, t)
    | S n' =>
        let pi := nth i c hzero in
        if qc_is0 (rat rs (h_val pi)) then hdrop n' (S i) t c rs
        else hdrop n' (S i) (S t) (if (t <? i)%nat then upd t pi c else c) rs
    end.
  (** book_compact.go:78-91: [n] postings from [i] on are left; the open transaction starts at [last] *)
  Fixpoint hgroup (a off : nat) (c : list hpost) (n i last : nat) : list slice :=
    match n with
    | O => [mkS a (off + last) (i - last)]
    | S n' =>
        let pi := nth i c hzero in
        let pl := nth last c hzero in
        if negb (h_date pi =? h_date pl) || negb (str_eqb (h_payee pi) (h_payee pl))
        then mkS a (off + last) (i - last) :: hgroup a off c n' (S i) i
        else hgroup a off c n' (S i) last
    end.
  (** book_compact.go:93-107: bal.Set through the pointer *)
  Fixpoint hbal (amts : list ((str * str) * Qc)) (c : list hpost) (rs : list Qc) : list Qc :=
    match c with
    | [] => rs
    | p :: c' =>
        let key := (h_acct p, h_ccy p) in
        let v := match aget pair_eqb key amts with None => rat rs (h_val p) | Some v => (v + rat rs (h_val p))%Qc end in
        hbal (aset pair_eqb key v amts) c' (upd (h_bal p) v rs)
    end.
  (** book_compact.go:8-108 [compact] *)
  Definition hcompact (m : mem) (b : hbook) : mem * hbook :=
    let s := hb_post b in
    if (s_len s =? 0)%nat then (m, b)
    else
      let c := cells m s in
      let c := arrange hzero c (ord (map (look (m_rats m)) c)) in
      let '(c, rs, t) := hmerge (length c - 1) 1 0 c (m_rats m) in
      let '(c, t) := hdrop (S t) 0 0 c rs in
      let ts := if (t =? 0)%nat then [] else hgroup (s_arr s) (s_off s) c (t - 1) 1 0 in
      let rs := hbal [] (firstn t c) rs in
      (set_rats (put m (s_arr s) (s_off s) c) rs, mkHB (mkS (s_arr s) (s_off s) t) ts (hb_prices b) (hb_ccy b)).

  (** ** Builder (builder.go). [hbu_b] holds every field but the postings (its [bu_post] is not used). *)
  Record hbuilder := mkHU { hbu_post : slice; hbu_b : builder }.
  (** builder.go:57-67 [NewBookBuilder] *)
  Definition hnew_builder (m : mem) : mem * hbuilder :=
    let '(m, s) := make_posts m 200 in (m, mkHU s new_builder).
  (** builder.go:107-127 [AddPosting]: the caller's pointer [amt] is stored *)
  Definition hadd_posting (m : mem) (u : hbuilder) (acct ccy : str) (amt : nat) (note : str) : mem * hbuilder :=
    let b := hbu_b u in
    let '(m, z) := alloc m 0%Qc in
    let '(m, s) := append m (hbu_post u) [mkH (bu_date b) (bu_payee b) (bu_note b) acct ccy amt note z 0 [] []] in
    let v := rat (m_rats m) amt in
    let v := match aget str_eqb ccy (bu_amts b) with Some w => (w + v)%Qc | None => v end in
    (m, mkHU s (mkB [] (bu_prev b) (aset str_eqb ccy v (bu_amts b)) (bu_date b) (bu_payee b) (bu_note b) (bu_prices b))).
  (** A call on a builder; the client makes a new rational for every posting. *)
  Definition hbstep (m : mem) (u : hbuilder) (c : bcall) : outcome (mem * hbuilder) :=
    match c with
    | CTrans d p n => do b <- new_transaction (hbu_b u) d p n; Ok (m, mkHU (hbu_post u) b)
    | CPost a c v n => let '(m, q) := alloc m v in Ok (hadd_posting m u a c q n)
    | CPrice d x c v => Ok (m, mkHU (hbu_post u) (b_add_price (hbu_b u) d x c v))
    end.
  (** builder.go:18-55 [Build]: the book takes the builder's array *)
  Definition hbuild (m : mem) (u : hbuilder) : outcome (mem * hbuilder * hbook) :=
    do b <- check_and_clear (hbu_b u);
    let s := hbu_post u in
    let rmap := map (fun '(c, v) => (c, decimals_of v)) (max_denoms [] (look_slice m s)) in
    let '(m, bk) := hcompact m (mkHB s (repeat (mkS (s_arr s) 0 0) (s_len s)) (build_prices (bu_prices b)) rmap) in
    Ok (m, mkHU s b, bk).

  (** ** Book operations *)
  (** book.go:46-52 [Duplicate]: the postings and the transaction slices are copied, the rationals and the arrays
      the transactions lie in are not *)
  Definition hduplicate (m : mem) (b : hbook) : mem * hbook :=
    let '(m, a) := alloc_arr m (cells m (hb_post b)) in
    (m, mkHB (mkS a 0 (s_len (hb_post b))) (hb_trans b) (hb_prices b) (hb_ccy b)).

  (** book.go:272-286 [MapAccount] *)
  Fixpoint hmap_acct (f : str -> str) (amap : list (str * str)) (c : list hpost) : list hpost :=
    match c with
    | [] => []
    | p :: c' => let '(n, amap') := match aget str_eqb (h_acct p) amap with
                                    | Some n => (n, amap)
                                    | None => let n := f (h_acct p) in (n, aset str_eqb (h_acct p) n amap)
                                    end in
                 hset_acct p n :: hmap_acct f amap' c'
    end.
  Definition put_post (m : mem) (b : hbook) (c : list hpost) : mem := put m (s_arr (hb_post b)) (s_off (hb_post b)) c.
  Definition hmap_account (f : str -> str) (m : mem) (b : hbook) : mem * hbook :=
    hcompact (put_post m b (hmap_acct f [] (cells m (hb_post b)))) b.

  (** book.go:255-261 [MapTransaction] *)
  Definition hmap_transaction (f : Z -> str -> Z * str) (m : mem) (b : hbook) : mem * hbook :=
    hcompact (put_post m b (map (fun p => let '(d, pay) := f (h_date p) (h_payee p) in hset_date p d pay) (cells m (hb_post b)))) b.

  (** book.go:263-270 [MapAmount]: val.Mul through the pointer *)
  Fixpoint hmap_amt (f : Z -> str -> Qc * str) (c : list hpost) (rs : list Qc) : list hpost * list Qc :=
    match c with
    | [] => ([], rs)
    | p :: c' => let '(v, y) := f (h_date p) (h_ccy p) in
                 let '(c2, rs2) := hmap_amt f c' (upd (h_val p) (rat rs (h_val p) * v)%Qc rs) in
                 (hset_ccy p y :: c2, rs2)
    end.
  Definition hmap_amount (f : Z -> str -> Qc * str) (m : mem) (b : hbook) : mem * hbook :=
    let '(c, rs) := hmap_amt f (cells m (hb_post b)) (m_rats m) in
    (set_rats (put_post m b c) rs, b).

  (** book.go:237-253 [FilterTransaction] with a filter that keeps a state [st] (book_dedup.go:9-37 needs one) *)
  Section Filter.
    Context {S : Type}.
    Variable f : S -> trans -> outcome (bool * S).
    Fixpoint hfilter_loop (st : S) (m : mem) (newp : slice) (newt : list slice) (ts : list slice) : outcome (mem * slice * list slice) :=
      match ts with
      | [] => Ok (m, newp, newt)
      | t :: ts' =>
          if (s_len t =? 0)%nat then Panic
          else do (keep, st) <- f st (look_slice m t);
               if keep
               then let idx := s_len newp in
                    let '(m, newp) := append m newp (cells m t) in
                    hfilter_loop st m newp (newt ++ [mkS (s_arr newp) (s_off newp + idx) (s_len newp - idx)]) ts'
               else hfilter_loop st m newp newt ts'
      end.
    Definition hfilter (st : S) (m : mem) (b : hbook) : outcome (mem * hbook) :=
      let '(m, newp) := make_posts m (s_len (hb_post b)) in
      do (m, newp, newt) <- hfilter_loop st m newp [] (hb_trans b);
      Ok (m, mkHB newp newt (hb_prices b) (hb_ccy b)).
  End Filter.
  Definition first_of (f : Z -> str -> trans -> bool) (t : trans) : bool :=
    match t with [] => false | p :: _ => f (p_date p) (p_payee p) t end.
  Definition hfilter_transaction (f : Z -> str -> trans -> bool) : mem -> hbook -> outcome (mem * hbook) :=
    hfilter (fun (_ : unit) t => Ok (first_of f t, tt)) tt.
  (** book_dedup.go:7-38; [ref] is reftrans[refidx:] *)
  Definition dedup_keep (ref : list trans) (t : trans) : outcome (bool * list trans) :=
    match t with
    | [] => Panic
    | p :: _ =>
        let ref := dedup_advance ref (p_date p) (p_payee p) in
        match ref with
        | [] => Ok (true, ref)
        | [] :: _ => Panic
        | (q :: _) :: _ => Ok (negb (str_eqb (p_payee q) (p_payee p) && (p_date q =? p_date p)), ref)
        end
    end.

  (** posting.go:46-59: a new posting with its own rationals *)
  Definition hdup (m : mem) (p : hpost) (acct : str) (date : Z) (factor : Qc) : mem * hpost :=
    let '(m, r) := alloc m (rat (m_rats m) (h_val p) * factor)%Qc in
    let '(m, z) := alloc m 0%Qc in
    (m, mkH date (h_payee p) (h_tnote p) acct (h_ccy p) r (h_note p) z 0 acct (h_sort p)).
  (** newposts = append(newposts, p.byAcctDateFactor(acct, date, factor)) for each of [es] *)
  Fixpoint hemit (m : mem) (np : slice) (p : hpost) (es : list (str * Z * Qc)) : mem * slice :=
    match es with
    | [] => (m, np)
    | (a, d, f) :: es' => let '(m, q) := hdup m p a d f in
                          let '(m, np) := append m np [q] in
                          hemit m np p es'
    end.
  (** for _, p := range [orig] { append ... }: posting [i] is read from memory when its turn comes *)
  Fixpoint hrange (gen : hpost -> list (str * Z * Qc)) (orig : slice) (n i : nat) (m : mem) (np : slice) : mem * slice :=
    match n with
    | O => (m, np)
    | S n' => let p := nth i (cells m orig) hzero in
              let '(m, np) := hemit m np p (gen p) in
              hrange gen orig n' (S i) m np
    end.
  Definition with_hpost (b : hbook) (s : slice) : hbook := mkHB s (hb_trans b) (hb_prices b) (hb_ccy b).

  (** book.go:108-116 (the factor is computed from dates alone; lines 75-106 as in BookModel.adjust_by) *)
  Definition hadjust_by (by_ : str) (m : mem) (b : hbook) : outcome (mem * hbook) :=
    if str_eqb by_ (bs "none") then Ok (m, b)
    else let '(mn, mx) := min_max_date (look_slice m (hb_post b)) in
         do daysDiff <- days_since mx mn;
         do factor <- adjust_factor by_ daysDiff;
         let '(m, np) := make_posts m (s_len (hb_post b)) in
         let '(m, np) := hrange (fun p => [(h_acct p, h_date p, factor)]) (hb_post b) (s_len (hb_post b)) 0 m np in
         Ok (hcompact m (with_hpost b np)).
  (** book.go:151-164 *)
  Fixpoint depr_times (today : Z) (acct nacct period : str) (periods : Z) (n : nat) (d : Z) : list (str * Z * Qc) :=
    match n with
    | O => []
    | S n' => (nacct, d, (- (1 / qz periods))%Qc) :: (acct, d, (1 / qz periods)%Qc)
              :: depr_times today acct nacct period periods n' (floor_diff today d period 1)
    end.
  Definition depr_gen (today : Z) (m : str -> bool) (r : str -> str) (period : str) (periods : Z) (p : hpost) : list (str * Z * Qc) :=
    if m (h_acct p)
    then (h_acct p, h_date p, (- (1))%Qc) :: (r (h_acct p), h_date p, 1%Qc)
         :: depr_times today (h_acct p) (r (h_acct p)) period periods (Z.to_nat periods) (h_date p)
    else [].
  (** book.go:136-169 [Depreciate]: appends to the book's own array *)
  Definition hdepreciate today (mt : str -> bool) r period periods (m : mem) (b : hbook) : mem * hbook :=
    let '(m, np) := hrange (depr_gen today mt r period periods) (hb_post b) (s_len (hb_post b)) 0 m (hb_post b) in
    hcompact m (with_hpost b np).
  (** book.go:179-195 [AdjustPost] *)
  Definition adj_gen (m : str -> bool) (r : str -> str) (factor : Qc) (p : hpost) : list (str * Z * Qc) :=
    if m (h_acct p) then [(h_acct p, h_date p, (- factor)%Qc); (r (h_acct p), h_date p, factor)] else [].
  Definition hadjust_post (mt : str -> bool) r factor (m : mem) (b : hbook) : mem * hbook :=
    let '(m, np) := hrange (adj_gen mt r factor) (hb_post b) (s_len (hb_post b)) 0 m (hb_post b) in
    hcompact m (with_hpost b np).

  (** book_reclassify.go:63-91: trans[ctrans].acct = ... writes into the array of the transaction slice *)
  Definition hreclass_cells (dist : str -> str -> Qc) (ord2 : nat -> list (str * str) -> list (str * str)) (refacct : str)
      (pm : list (str * str)) (i : nat) (c : list hpost) : list hpost :=
    match c with
    | [p; q] =>
        if str_eqb (h_acct p) refacct then
          let '(mx, a) := best (dist (h_payee p)) (ord2 i pm) 0%Qc [] in
          if qc_ltb 0%Qc mx then [p; hput_acct q a] else c
        else if str_eqb (h_acct q) refacct then
          let '(mx, a) := best (dist (h_payee p)) (ord2 i pm) 0%Qc [] in
          if qc_ltb 0%Qc mx then [hput_acct p a; q] else c
        else c
    | _ => c
    end.
  Fixpoint hreclass_loop dist ord2 refacct pm (i : nat) (m : mem) (ts : list slice) : mem :=
    match ts with
    | [] => m
    | t :: ts' => hreclass_loop dist ord2 refacct pm (S i)
                    (put m (s_arr t) (s_off t) (hreclass_cells dist ord2 refacct pm i (cells m t))) ts'
    end.

  (** ** Accumulate (book_accum.go:166-346). Lines 116-149 append postings with two new rationals each; they read
      posts[0:postEnd], which the appended postings do not overlap, so the list [add] is computed beforehand. *)
  Fixpoint happend_all (m : mem) (s : slice) (add : list posting) : mem * slice :=
    match add with
    | [] => (m, s)
    | p :: add' =>
        let '(m, v) := alloc m (p_val p) in
        let '(m, z) := alloc m (p_bal p) in
        let '(m, s) := append m s [mkH (p_date p) (p_payee p) (p_tnote p) (p_acct p) (p_ccy p) v (p_note p) z (p_level p) (p_term p) (p_sort p)] in
        happend_all m s add'
    end.
  (** book_accum.go:158-161: the sort rearranges the array in place *)
  Definition hsort (m : mem) (s : slice) : mem :=
    put m (s_arr s) (s_off s) (arrange hzero (cells m s) (ord (look_slice m s))).
  Variable it : list posting -> list str -> list str.
  Variable micro : Qc -> Z.
  (** book_accum.go:182-343 reads the postings and makes new rows; the memory is not written. *)
  Definition accum_rest (pb : pbook) (posts : list posting) (toCCY divider : str) (credit : option (str -> bool)) (hidden : str) : outcome (list trans) :=
    let accum := find_accum toCCY divider None [] posts in
    do rows <- map_o (accum_trans it micro pb accum toCCY divider) (group_all posts);
    match hide credit hidden (srt_of ord (concat (map fst rows) ++ concat (map snd rows))) with
    | [] => Panic
    | rows' => Ok (group_all rows')
    end.
  Definition haccumulate (toCCY divider : str) (credit : option (str -> bool)) (hidden : str) (m : mem) (b : hbook)
      : outcome (mem * hbook * list trans) :=
    let '(m, b) := hcompact m b in
    let s := hb_post b in
    if (s_len s =? 0)%nat then let '(m, b) := hcompact m b in Ok (m, b, map (look_slice m) (hb_trans b))
    else match look_slice m s with
         | [] => Panic
         | p :: _ =>
             do add <- fill_all (S (s_len s)) (acct_list (look_slice m s)) p (look_slice m s);
             let '(m, s) := happend_all m s add in
             let m := hsort m s in
             do ts <- accum_rest (hb_prices b) (look_slice m s) toCCY divider credit hidden;
             Ok (m, b, ts)
         end.

  (** ** Operations on one book *)
  Definition hrun_op (o : op) (m : mem) (b : hbook) : outcome (mem * hbook) :=
    match o with
    | OMapAccount f => Ok (hmap_account f m b)
    | ORegexAccounts mt r h alt => Ok (hmap_account (regex_account mt r h alt) m b)
    | OMapAmount f => Ok (hmap_amount f m b)
    | OMapTransaction f => Ok (hmap_transaction f m b)
    | OSplitBy today by_ => Ok (hmap_transaction (fun d _ => (floor today d by_, [])) m b)
    | OFilter f => hfilter_transaction f m b
    | OSince d => if d =? 0 then Ok (m, b) else hfilter_transaction (fun x _ _ => d <=? x) m b
    | OAsof d => if d =? 0 then Ok (m, b) else hfilter_transaction (fun x _ _ => x <? d) m b
    | OByAccount a => hfilter_transaction (fun _ _ t => existsb (fun p => str_eqb (p_acct p) a) t) m b
    | OAdjustBy by_ => hadjust_by by_ m b
    | ODepreciate today mt r period periods => Ok (hdepreciate today mt r period periods m b)
    | OAdjustPost mt r factor => Ok (hadjust_post mt r factor m b)
    | ORemoveDup _ | OReclassify _ _ _ _ _ => Error (* the other book is an object too: KDedup, KReclass *)
    | OTransactions => Ok (hcompact m b)
    end.

  (** ** Programs. The objects a client holds are numbered in the order in which they were made. *)
  Inductive obj := ObjU (u : hbuilder) | ObjB (b : hbook).
  Inductive cmd :=
  | KNew                                   (* NewBookBuilder() *)
  | KCall (k : nat) (c : bcall)            (* NewTransaction, AddPosting, AddPrice on builder k *)
  | KBuild (k : nat)                       (* k.Build(): a new object *)
  | KOp (k : nat) (o : op)                 (* an operation on book k *)
  | KDedup (k j : nat)                     (* k.RemoveDuplicatesOf(j) *)
  | KReclass (k j : nat) (ord1 : str -> list (str * Z) -> list (str * Z)) (ord2 : nat -> list (str * str) -> list (str * str))
      (dist : str -> str -> Qc) (refacct : str)   (* k.ReclassifyByAccount(j, refacct, dist) *)
  | KDuplicate (k : nat)                   (* k.Duplicate(): a new object *)
  | KAccumulate (k : nat) (toCCY divider : str) (credit : option (str -> bool)) (hidden : str).
  Definition the_builder (os : list obj) (k : nat) : outcome hbuilder :=
    match nth_error os k with Some (ObjU u) => Ok u | _ => Panic end.
  Definition the_book (os : list obj) (k : nat) : outcome hbook :=
    match nth_error os k with Some (ObjB b) => Ok b | _ => Panic end.
  Definition hstep (c : cmd) (m : mem) (os : list obj) : outcome (mem * list obj) :=
    match c with
    | KNew => let '(m, u) := hnew_builder m in Ok (m, os ++ [ObjU u])
    | KCall k c => do u <- the_builder os k; do (m, u) <- hbstep m u c; Ok (m, upd k (ObjU u) os)
    | KBuild k => do u <- the_builder os k; do (m, u, b) <- hbuild m u; Ok (m, upd k (ObjU u) os ++ [ObjB b])
    | KOp k o => do b <- the_book os k; do (m, b) <- hrun_op o m b; Ok (m, upd k (ObjB b) os)
    | KDedup k j =>
        (* book_dedup.go:7-10: main.Transactions(), then the filter *)
        do mb <- the_book os j;
        let '(m, mb) := hcompact m mb in
        let os := upd j (ObjB mb) os in
        do b <- the_book os k;
        do (m, b) <- hfilter dedup_keep (map (look_slice m) (hb_trans mb)) m b;
        Ok (m, upd k (ObjB b) os)
    | KReclass k j ord1 ord2 dist refacct =>
        (* book_reclassify.go:17-61: ref.Transactions(), then the payee mapping; 63: b.Transactions() *)
        do rb <- the_book os j;
        let '(m, rb) := hcompact m rb in
        let os := upd j (ObjB rb) os in
        let pm := payee_mapping ord1 refacct (map (look_slice m) (hb_trans rb)) in
        do b <- the_book os k;
        let '(m, b) := hcompact m b in
        Ok (hreclass_loop dist ord2 refacct pm 0 m (hb_trans b), upd k (ObjB b) os)
    | KDuplicate k => do b <- the_book os k; let '(m, d) := hduplicate m b in Ok (m, os ++ [ObjB d])
    | KAccumulate k toCCY divider credit hidden =>
        do b <- the_book os k; do (m, b, _) <- haccumulate toCCY divider credit hidden m b; Ok (m, upd k (ObjB b) os)
    end.
  Fixpoint hrun (cs : list cmd) (m : mem) (os : list obj) : outcome (mem * list obj) :=
    match cs with [] => Ok (m, os) | c :: cs' => do (m, os) <- hstep c m os; hrun cs' m os end.
End Heap.
