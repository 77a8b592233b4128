(** * HeapSpec: the same programs with independent values.

    Every object is a value of its own: an operation changes the object it is applied to (and compacts the other
    book it looks at) and nothing else. HeapProps.v compares this with HeapModel.v. *)
From Verif Require Import Base Dec DateModel PriceModel BookModel OpsModel AccumModel HeapModel.

Inductive vobj := ValU (u : builder) | ValB (b : book).
Definition val_builder (os : list vobj) (k : nat) : outcome builder :=
  match nth_error os k with Some (ValU u) => Ok u | _ => Panic end.
Definition val_book (os : list vobj) (k : nat) : outcome book :=
  match nth_error os k with Some (ValB b) => Ok b | _ => Panic end.
Section Values.
  Variable srt : list posting -> list posting.
  Variable it : list posting -> list str -> list str.
  Variable micro : Qc -> Z.
  Definition vstep (c : cmd) (os : list vobj) : outcome (list vobj) :=
    match c with
    | KNew => Ok (os ++ [ValU new_builder])
    | KCall k c => do u <- val_builder os k; do u <- bstep u c; Ok (upd k (ValU u) os)
    | KBuild k => do u <- val_builder os k; do u' <- check_and_clear u; do b <- build srt u; Ok (upd k (ValU u') os ++ [ValB b])
    | KOp k o => do b <- val_book os k;
                 match other_book o with
                 | None => do b <- run_op srt o b; Ok (upd k (ValB b) os)
                 | Some _ => Error
                 end
    | KDedup k j => do main <- val_book os j;
                    let os := upd j (ValB (compact srt main)) os in
                    do b <- val_book os k;
                    do x <- remove_duplicates_of srt main b;
                    Ok (upd k (ValB (snd x)) os)
    | KReclass k j ord1 ord2 dist refacct =>
                    do ref <- val_book os j;
                    let os := upd j (ValB (compact srt ref)) os in
                    do b <- val_book os k;
                    Ok (upd k (ValB (snd (reclassify srt ord1 ord2 dist ref b refacct))) os)
    | KDuplicate k => do b <- val_book os k; Ok (os ++ [ValB b])
    | KAccumulate k toCCY divider credit hidden =>
                    do b <- val_book os k; do x <- accumulate srt it micro toCCY divider credit hidden b; Ok (upd k (ValB (fst x)) os)
    end.
  Fixpoint vrun (cs : list cmd) (os : list vobj) : outcome (list vobj) :=
    match cs with [] => Ok os | c :: cs' => do os <- vstep c os; vrun cs' os end.
End Values.

(** The order a sort puts a list in is a permutation of its indices. *)
Definition order_ok (ord : list posting -> list nat) : Prop := forall l, Permutation (ord l) (seq 0 (length l)).

(** What a client sees of an object that is a book. *)
Definition seen_book (m : mem) (os : list obj) (k : nat) : option book :=
  match nth_error os k with Some (ObjB b) => Some (read m b) | _ => None end.
Definition val_seen (os : list vobj) (k : nat) : option book :=
  match nth_error os k with Some (ValB b) => Some b | _ => None end.

(** A client that shares nothing: it leaves a builder alone after Build, and uses neither Duplicate nor Accumulate. *)
Fixpoint tidy (built : list nat) (cs : list cmd) : Prop :=
  match cs with
  | [] => True
  | KCall k _ :: cs' => ~ In k built /\ tidy built cs'
  | KBuild k :: cs' => ~ In k built /\ tidy (k :: built) cs'
  | KDuplicate _ :: _ => False
  | KAccumulate _ _ _ _ _ :: _ => False
  | _ :: cs' => tidy built cs'
  end.
(** How many objects a program makes. *)
Fixpoint made (cs : list cmd) : nat :=
  match cs with
  | [] => O
  | (KNew | KBuild _ | KDuplicate _) :: cs' => S (made cs')
  | _ :: cs' => made cs'
  end.
(** Operations that only select transactions. *)
Definition selects (o : op) : bool := match o with OFilter _ | OSince _ | OAsof _ | OByAccount _ => true | _ => false end.
(** The account and currency pairs a summary has to add: for every transaction, those of the book it does not have. *)
Definition pair_dec : forall x y : str * str, {x = y} + {x <> y}.
Proof. repeat decide equality. Defined.
Definition pairs_of (t : trans) : list (str * str) := map (fun p => (p_acct p, p_ccy p)) t.
Definition added (ts : list trans) : nat :=
  length (flat_map (fun t => filter (fun k => if in_dec pair_dec k (pairs_of t) then false else true) (nodup pair_dec (pairs_of (concat ts)))) ts).
(** The unused cells behind the postings of a book. *)
Definition room (m : mem) (b : hbook) : nat :=
  (length (arr m (s_arr (hb_post b))) - (s_off (hb_post b) + s_len (hb_post b)))%nat.
Section Careful.
  Variable ord : list posting -> list nat.
  Variable grow : nat -> nat.
  Variable it : list posting -> list str -> list str.
  Variable micro : Qc -> Z.
  (** The summary of [b] will not fit into the book's own array: nothing is to be added, or more than there is room for. *)
  Definition spared (m : mem) (b : hbook) : Prop :=
    let '(m1, b1) := hcompact ord m b in
    let n := added (map (look_slice m1) (hb_trans b1)) in n = 0%nat \/ (room m1 b1 < n)%nat.
  (** Like [tidy], with Accumulate on books that are spared. *)
  Fixpoint careful (built : list nat) (cs : list cmd) (m : mem) (os : list obj) : Prop :=
    match cs with
    | [] => True
    | c :: cs' =>
        match c with
        | KCall k _ | KBuild k => ~ In k built
        | KAccumulate k _ _ _ _ => forall b, nth_error os k = Some (ObjB b) -> spared m b
        | KDuplicate _ => False
        | _ => True
        end /\
        match hstep ord grow it micro c m os with
        | Ok (m', os') => careful (match c with KBuild k => k :: built | _ => built end) cs' m' os'
        | _ => True
        end
    end.
End Careful.
(** Same result: both fail in the same way, or both end with the same books. *)
Definition agree (h : outcome (mem * list obj)) (v : outcome (list vobj)) : Prop :=
  match h, v with
  | Ok (m, os), Ok vs => forall k, seen_book m os k = val_seen vs k
  | Error, Error => True
  | Panic, Panic => True
  | Diverge, Diverge => True
  | _, _ => False
  end.
