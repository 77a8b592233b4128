(** * Base: strings as byte lists, orders, outcomes, sums of rationals.

    Shared vocabulary of the model; nothing here models a particular function of /repo. *)
From Coq Require Export List ZArith QArith Qcanon Lia Permutation Sorted Bool.
From Coq Require Import Ascii String.
Export (notations) Coq.Strings.String.
Export ListNotations.
Open Scope Z_scope.
Open Scope list_scope.

(** ** Outcomes of a Go call *)
Inductive outcome (A : Type) : Type :=
| Ok (a : A)          (* normal return *)
| Error               (* a non-nil [error] is returned *)
| Panic               (* Go panic: explicit, index, nil, division by zero *)
| Diverge.            (* model fuel exhausted *)
Arguments Ok {A} _.
Arguments Error {A}.
Arguments Panic {A}.
Arguments Diverge {A}.

Definition obind {A B} (o : outcome A) (f : A -> outcome B) : outcome B :=
  match o with Ok a => f a | Error => Error | Panic => Panic | Diverge => Diverge end.
Notation "'do' x <- e ; f" := (obind e (fun x => f)) (at level 200, x pattern, e at level 100, f at level 200).

Lemma obind_Ok {A B} (o : outcome A) (f : A -> outcome B) b :
  obind o f = Ok b <-> exists a, o = Ok a /\ f a = Ok b.
Proof.
  split.
  - destruct o; cbn; intros H; try discriminate. eauto.
  - intros (a & -> & H). exact H.
Qed.

(** ** Strings *)
Definition str := list Z.

(** Byte list of an ASCII literal. *)
Fixpoint bs (s : string) : str :=
  match s with
  | EmptyString => []
  | String a s' => Z.of_N (N_of_ascii a) :: bs s'
  end.

Arguments bs s%string.

Fixpoint str_cmp (a b : str) : comparison :=
  match a, b with
  | [], [] => Eq
  | [], _ :: _ => Lt
  | _ :: _, [] => Gt
  | x :: a', y :: b' => match x ?= y with Eq => str_cmp a' b' | c => c end
  end.

Fixpoint str_eqb (a b : str) : bool :=
  match a, b with
  | [], [] => true
  | x :: a', y :: b' => (x =? y) && str_eqb a' b'
  | _, _ => false
  end.

Definition str_ltb (a b : str) : bool := match str_cmp a b with Lt => true | _ => false end.
Definition str_leb (a b : str) : bool := match str_cmp a b with Gt => false | _ => true end.

Lemma str_eqb_eq a b : str_eqb a b = true <-> a = b.
Proof.
  revert b; induction a as [|x a IH]; destruct b as [|y b]; cbn; split; intros H;
    try discriminate; try reflexivity.
  - apply andb_true_iff in H as [H1 H2]. apply Z.eqb_eq in H1. apply IH in H2. congruence.
  - injection H as -> ->. rewrite Z.eqb_refl. cbn. apply IH. reflexivity.
Qed.
Lemma str_eqb_refl a : str_eqb a a = true.
Proof. apply str_eqb_eq; reflexivity. Qed.
Lemma str_eqb_neq a b : str_eqb a b = false <-> a <> b.
Proof.
  split; intros H.
  - intros ->. rewrite str_eqb_refl in H. discriminate.
  - destruct (str_eqb a b) eqn:E; [|reflexivity]. apply str_eqb_eq in E. contradiction.
Qed.
Lemma str_eqb_sym a b : str_eqb a b = str_eqb b a.
Proof.
  destruct (str_eqb b a) eqn:E.
  - apply str_eqb_eq in E. subst. apply str_eqb_refl.
  - apply str_eqb_neq in E. apply str_eqb_neq. congruence.
Qed.
Lemma str_eqb_spec a b : reflect (a = b) (str_eqb a b).
Proof. apply iff_reflect. symmetry. apply str_eqb_eq. Qed.
Definition str_eq_dec (a b : str) : {a = b} + {a <> b} := list_eq_dec Z.eq_dec a b.

(** ** Comparison functions forming a linear order *)
Record lincmp {A} (cmp : A -> A -> comparison) : Prop := {
  lc_eq : forall a b, cmp a b = Eq <-> a = b;
  lc_anti : forall a b, cmp b a = CompOpp (cmp a b);
  lc_trans : forall a b c, cmp a b = Lt -> cmp b c = Lt -> cmp a c = Lt
}.

Lemma lc_refl {A} (cmp : A -> A -> comparison) (H : lincmp cmp) a : cmp a a = Eq.
Proof. apply (lc_eq _ H). reflexivity. Qed.

Lemma lc_lt_irrefl {A} (cmp : A -> A -> comparison) (H : lincmp cmp) a : cmp a a <> Lt.
Proof. rewrite (lc_refl _ H). discriminate. Qed.

Lemma lc_gt_lt {A} (cmp : A -> A -> comparison) (H : lincmp cmp) a b : cmp a b = Gt <-> cmp b a = Lt.
Proof. rewrite (lc_anti _ H a b). destruct (cmp a b); cbn; split; congruence. Qed.

Lemma Zcmp_lin : lincmp Z.compare.
Proof.
  split.
  - intros a b. apply Z.compare_eq_iff.
  - intros a b. apply Z.compare_antisym.
  - intros a b c. rewrite !Z.compare_lt_iff. lia.
Qed.

Lemma str_cmp_eq a : forall b, str_cmp a b = Eq <-> a = b.
Proof.
  induction a as [|x a IH]; destruct b as [|y b]; cbn; split; intros H;
    try discriminate; try reflexivity.
  - destruct (x ?= y) eqn:E; try discriminate. apply Z.compare_eq in E. apply IH in H. congruence.
  - injection H as -> ->. rewrite Z.compare_refl. apply IH. reflexivity.
Qed.
Lemma str_cmp_anti a : forall b, str_cmp b a = CompOpp (str_cmp a b).
Proof.
  induction a as [|x a IH]; destruct b as [|y b]; cbn; try reflexivity.
  rewrite (Z.compare_antisym x y), (IH b). destruct (x ?= y); reflexivity.
Qed.
Lemma str_cmp_trans a : forall b c, str_cmp a b = Lt -> str_cmp b c = Lt -> str_cmp a c = Lt.
Proof.
  induction a as [|x a IH]; destruct b as [|y b]; destruct c as [|z c]; cbn; intros H1 H2;
    try discriminate; try reflexivity.
  destruct (x ?= y) eqn:E1; destruct (y ?= z) eqn:E2; try discriminate.
  - apply Z.compare_eq in E1. apply Z.compare_eq in E2. subst. rewrite Z.compare_refl. eauto.
  - apply Z.compare_eq in E1. subst. rewrite E2. reflexivity.
  - apply Z.compare_eq in E2. subst. rewrite E1. reflexivity.
  - rewrite Z.compare_lt_iff in *. replace (x ?= z) with Lt; [reflexivity|].
    symmetry. rewrite Z.compare_lt_iff. lia.
Qed.
Lemma str_cmp_lin : lincmp str_cmp.
Proof.
  split; [intros; apply str_cmp_eq | intros; apply str_cmp_anti | intros a b c; apply str_cmp_trans].
Qed.

(** Lexicographic product. *)
Definition lex {A B} (ca : A -> A -> comparison) (cb : B -> B -> comparison) (x y : A * B) : comparison :=
  match ca (fst x) (fst y) with Eq => cb (snd x) (snd y) | c => c end.
Lemma lex_lin {A B} (ca : A -> A -> comparison) (cb : B -> B -> comparison) :
  lincmp ca -> lincmp cb -> lincmp (lex ca cb).
Proof.
  intros Ha Hb. split.
  - intros [a1 b1] [a2 b2]; unfold lex; cbn. split; intros H.
    + destruct (ca a1 a2) eqn:E; try discriminate.
      apply (lc_eq _ Ha) in E. apply (lc_eq _ Hb) in H. congruence.
    + injection H as -> ->. rewrite (lc_refl _ Ha). apply (lc_refl _ Hb).
  - intros [a1 b1] [a2 b2]; unfold lex; cbn.
    rewrite (lc_anti _ Ha a1 a2), (lc_anti _ Hb b1 b2). destruct (ca a1 a2); reflexivity.
  - intros [a1 b1] [a2 b2] [a3 b3]; unfold lex; cbn. intros H1 H2.
    destruct (ca a1 a2) eqn:E1; destruct (ca a2 a3) eqn:E2; try discriminate.
    + apply (lc_eq _ Ha) in E1. apply (lc_eq _ Ha) in E2. subst. rewrite (lc_refl _ Ha).
      eapply (lc_trans _ Hb); eauto.
    + apply (lc_eq _ Ha) in E1. subst. rewrite E2. reflexivity.
    + apply (lc_eq _ Ha) in E2. subst. rewrite E1. reflexivity.
    + rewrite (lc_trans _ Ha _ _ _ E1 E2). reflexivity.
Qed.

(** ** Sorting: the contract of Go's sort.Slice
    sort.Slice(l, less) returns some permutation of l in which no element is [less] than an earlier
    one. It is not stable, so nothing else is assumed. *)
Definition sorted_by {A} (less : A -> A -> bool) (l : list A) : Prop :=
  StronglySorted (fun a b => less b a = false) l.
Definition sort_ok {A} (less : A -> A -> bool) (srt : list A -> list A) : Prop :=
  forall l, Permutation l (srt l) /\ sorted_by less (srt l).

(** Stable insertion sort: sort.SliceStable (and a witness that [sort_ok] is satisfiable). *)
Fixpoint insert_by {A} (less : A -> A -> bool) (x : A) (l : list A) : list A :=
  match l with
  | [] => [x]
  | y :: l' => if less y x then y :: insert_by less x l' else x :: l
  end.
Fixpoint isort {A} (less : A -> A -> bool) (l : list A) : list A :=
  match l with [] => [] | x :: l' => insert_by less x (isort less l') end.

Lemma insert_by_perm {A} (less : A -> A -> bool) x l : Permutation (x :: l) (insert_by less x l).
Proof.
  induction l as [|y l IH]; cbn; [reflexivity|].
  destruct (less y x); [|reflexivity].
  rewrite perm_swap. apply perm_skip. exact IH.
Qed.
Lemma isort_perm {A} (less : A -> A -> bool) l : Permutation l (isort less l).
Proof.
  induction l as [|x l IH]; cbn; [reflexivity|].
  rewrite <- insert_by_perm. apply perm_skip. exact IH.
Qed.

(** [less] is a strict weak order (irreflexive via asymmetry, negatively transitive). *)
Record swo {A} (less : A -> A -> bool) : Prop := {
  swo_asym : forall a b, less a b = true -> less b a = false;
  swo_ntrans : forall a b c, less b a = false -> less c b = false -> less c a = false
}.

Lemma insert_by_sorted {A} (less : A -> A -> bool) x l :
  swo less -> sorted_by less l -> sorted_by less (insert_by less x l).
Proof.
  intros Hw. induction l as [|y l IH]; cbn; intros Hs.
  - constructor; constructor.
  - inversion Hs as [|? ? Hs' Hall]; subst.
    destruct (less y x) eqn:E.
    + constructor; [apply IH; exact Hs'|].
      rewrite Forall_forall in *. intros z Hz.
      apply (Permutation_in _ (Permutation_sym (insert_by_perm less x l))) in Hz.
      destruct Hz as [<-|Hz]; [apply (swo_asym _ Hw); exact E | apply Hall; exact Hz].
    + constructor; [exact Hs|].
      rewrite Forall_forall in *. intros z [<-|Hz]; [exact E|].
      eapply (swo_ntrans _ Hw); [exact E|]. apply Hall; exact Hz.
Qed.
Lemma isort_sorted {A} (less : A -> A -> bool) l : swo less -> sorted_by less (isort less l).
Proof.
  intros Hw. induction l as [|x l IH]; cbn; [constructor|]. apply insert_by_sorted; assumption.
Qed.
Lemma isort_ok {A} (less : A -> A -> bool) : swo less -> sort_ok less (isort less).
Proof. intros Hw l. split; [apply isort_perm | apply isort_sorted; exact Hw]. Qed.

(** Strict weak order from a linear order on a key. *)
Lemma swo_of_key {A K} (cmp : K -> K -> comparison) (key : A -> K) :
  lincmp cmp -> swo (fun a b => match cmp (key a) (key b) with Lt => true | _ => false end).
Proof.
  intros H. split.
  - intros a b. rewrite (lc_anti _ H (key a) (key b)). destruct (cmp (key a) (key b)); cbn; congruence.
  - intros a b c H1 H2.
    destruct (cmp (key c) (key a)) eqn:E; try reflexivity.
    destruct (cmp (key c) (key b)) eqn:E2; try discriminate.
    + apply (lc_eq _ H) in E2. rewrite E2 in E. rewrite E in H1. discriminate.
    + apply (lc_gt_lt _ H) in E2. rewrite (lc_trans _ H _ _ _ E2 E) in H1. discriminate.
Qed.

(** ** Sums of canonical rationals *)
Definition qsum (l : list Qc) : Qc := fold_right Qcplus 0%Qc l.
Definition qc_eqb (a b : Qc) : bool := if Qc_eq_dec a b then true else false.
Definition qc_is0 (a : Qc) : bool := qc_eqb a 0%Qc.
Definition qz (z : Z) : Qc := Q2Qc (inject_Z z).

Lemma qc_eqb_eq a b : qc_eqb a b = true <-> a = b.
Proof. unfold qc_eqb. destruct (Qc_eq_dec a b); split; congruence. Qed.
Lemma qc_is0_eq a : qc_is0 a = true <-> a = 0%Qc.
Proof. apply qc_eqb_eq. Qed.
Lemma qc_is0_neq a : qc_is0 a = false <-> a <> 0%Qc.
Proof. unfold qc_is0, qc_eqb. destruct (Qc_eq_dec a 0%Qc); split; congruence. Qed.

Lemma qsum_cons a l : qsum (a :: l) = (a + qsum l)%Qc.
Proof. reflexivity. Qed.
Lemma qsum_app a b : qsum (a ++ b) = (qsum a + qsum b)%Qc.
Proof. unfold qsum. induction a as [|x a IH]; cbn; [ring|]. rewrite IH. ring. Qed.
Lemma qsum_perm a b : Permutation a b -> qsum a = qsum b.
Proof. unfold qsum. induction 1; cbn; try congruence; ring. Qed.
Lemma qsum_scale (k : Qc) l : qsum (map (fun x => (k * x)%Qc) l) = (k * qsum l)%Qc.
Proof. unfold qsum. induction l as [|x l IH]; cbn; [ring|]. rewrite IH. ring. Qed.

(** ** Small list facts *)
Lemma filter_perm {A} (f : A -> bool) (a b : list A) : Permutation a b -> Permutation (filter f a) (filter f b).
Proof.
  induction 1; cbn.
  - constructor.
  - destruct (f x); [constructor; assumption | assumption].
  - destruct (f x), (f y); try apply perm_swap; reflexivity.
  - etransitivity; eassumption.
Qed.
Lemma filter_length_le {A} (f : A -> bool) l : (List.length (filter f l) <= List.length l)%nat.
Proof. induction l as [|x l IH]; cbn; [lia|]. destruct (f x); cbn; lia. Qed.
Lemma filter_none {A} (f : A -> bool) l : Forall (fun x => f x = false) l -> filter f l = [].
Proof. induction 1 as [|x l Hx Hl IH]; cbn; [reflexivity|]. rewrite Hx. exact IH. Qed.
Lemma filter_all {A} (f : A -> bool) l : Forall (fun x => f x = true) l -> filter f l = l.
Proof. induction 1 as [|x l Hx Hl IH]; cbn; [reflexivity|]. rewrite Hx, IH. reflexivity. Qed.
Lemma StronglySorted_app {A} (R : A -> A -> Prop) a b :
  StronglySorted R (a ++ b) <->
  StronglySorted R a /\ StronglySorted R b /\ (forall x y, In x a -> In y b -> R x y).
Proof.
  induction a as [|x a IH]; cbn.
  - split; [intros H; repeat split; [constructor|exact H|contradiction] | intros (_ & H & _); exact H].
  - split.
    + intros H. inversion H as [|? ? Hs Hall]; subst. apply IH in Hs as (Ha & Hb & Hab).
      rewrite Forall_app in Hall. destruct Hall as [Hxa Hxb].
      repeat split; [constructor; assumption|exact Hb|].
      intros u v [<-|Hu] Hv; [rewrite Forall_forall in Hxb; auto | auto].
    + intros (Ha & Hb & Hab). inversion Ha as [|? ? Hs Hall]; subst.
      constructor; [apply IH; repeat split; auto|].
      apply Forall_app. split; [exact Hall|]. rewrite Forall_forall. auto.
Qed.
Lemma StronglySorted_filter {A} (R : A -> A -> Prop) f l :
  StronglySorted R l -> StronglySorted R (filter f l).
Proof.
  induction 1 as [|x l Hs IH Hall]; cbn; [constructor|].
  destruct (f x); [|exact IH]. constructor; [exact IH|].
  rewrite Forall_forall in *. intros y Hy. apply filter_In in Hy as [Hy _]. auto.
Qed.
Lemma StronglySorted_map {A B} (g : A -> B) (R : B -> B -> Prop) l :
  StronglySorted (fun a b => R (g a) (g b)) l <-> StronglySorted R (map g l).
Proof.
  induction l as [|x l IH]; cbn.
  - split; constructor.
  - split; intros H; inversion H as [|? ? Hs Hall]; subst; constructor; try (apply IH; exact Hs).
    + rewrite Forall_forall in *. intros y Hy. apply in_map_iff in Hy as (z & <- & Hz). auto.
    + rewrite Forall_forall in *. intros z Hz. apply Hall. apply in_map. exact Hz.
Qed.
Lemma StronglySorted_impl {A} (R S : A -> A -> Prop) l :
  (forall a b, In a l -> In b l -> R a b -> S a b) -> StronglySorted R l -> StronglySorted S l.
Proof.
  intros H Hs. induction Hs as [|x l Hs IH Hall]; [constructor|].
  constructor.
  - apply IH. intros a b Ha Hb. apply H; right; assumption.
  - rewrite Forall_forall in *. intros y Hy. apply H; [left; reflexivity | right; exact Hy | auto].
Qed.

(** ** Go maps as association lists with distinct keys.
    Iteration order of a Go map is unspecified; where a loop over a map is modelled the order is an
    explicit parameter or the result is shown not to depend on it. *)
Section Assoc.
  Context {K V : Type} (eqb : K -> K -> bool).
  Fixpoint aget (k : K) (m : list (K * V)) : option V :=
    match m with
    | [] => None
    | (k', v) :: m' => if eqb k' k then Some v else aget k m'
    end.
  Fixpoint aset (k : K) (v : V) (m : list (K * V)) : list (K * V) :=
    match m with
    | [] => [(k, v)]
    | (k', v') :: m' => if eqb k' k then (k', v) :: m' else (k', v') :: aset k v m'
    end.
  Fixpoint adel (k : K) (m : list (K * V)) : list (K * V) :=
    match m with
    | [] => []
    | (k', v') :: m' => if eqb k' k then m' else (k', v') :: adel k m'
    end.
  Definition akeys (m : list (K * V)) : list K := map fst m.

  Hypothesis eqb_ok : forall a b, eqb a b = true <-> a = b.
  Lemma eqb_refl_ k : eqb k k = true.
  Proof. apply eqb_ok. reflexivity. Qed.
  Lemma aget_aset_eq k v m : aget k (aset k v m) = Some v.
  Proof.
    induction m as [|[k' v'] m IH]; cbn; [rewrite eqb_refl_; reflexivity|].
    destruct (eqb k' k) eqn:E; cbn; rewrite E; [reflexivity|exact IH].
  Qed.
  Lemma aget_aset_neq k k2 v m : k2 <> k -> aget k2 (aset k v m) = aget k2 m.
  Proof.
    intros Hn. induction m as [|[k' v'] m IH]; cbn.
    - destruct (eqb k k2) eqn:E; [apply eqb_ok in E; congruence|reflexivity].
    - destruct (eqb k' k) eqn:E; cbn.
      + destruct (eqb k' k2) eqn:E2; [|reflexivity]. apply eqb_ok in E. apply eqb_ok in E2. congruence.
      + destruct (eqb k' k2) eqn:E2; [reflexivity|exact IH].
  Qed.
  Lemma aget_In k v m : aget k m = Some v -> In (k, v) m.
  Proof.
    induction m as [|[k' v'] m IH]; cbn; [discriminate|].
    destruct (eqb k' k) eqn:E; [apply eqb_ok in E; intros H; injection H as ->; left; congruence|auto].
  Qed.
  Lemma aget_None k m : aget k m = None <-> ~ In k (akeys m).
  Proof.
    induction m as [|[k' v'] m IH]; cbn; [tauto|].
    destruct (eqb k' k) eqn:E.
    - apply eqb_ok in E. split; [discriminate|]. intros H. exfalso. apply H. left. exact E.
    - rewrite IH. split; [|tauto]. intros H [C|C]; [|auto].
      subst. rewrite eqb_refl_ in E. discriminate.
  Qed.
  Lemma aget_Some_iff k v m : NoDup (akeys m) -> (aget k m = Some v <-> In (k, v) m).
  Proof.
    intros Hn. split; [apply aget_In|].
    induction m as [|[k' v'] m IH]; cbn; [contradiction|].
    inversion Hn as [|? ? H1 H2]; subst.
    intros [E|Hin].
    - injection E as -> ->. rewrite eqb_refl_. reflexivity.
    - destruct (eqb k' k) eqn:E; [|auto].
      apply eqb_ok in E. subst. exfalso. apply H1. apply (in_map fst) in Hin. exact Hin.
  Qed.
  Lemma akeys_aset k v m :
    akeys (aset k v m) = if existsb (fun x => eqb x k) (akeys m) then akeys m else akeys m ++ [k].
  Proof.
    induction m as [|[k' v'] m IH]; cbn; [reflexivity|].
    destruct (eqb k' k) eqn:E; cbn; [reflexivity|].
    unfold akeys in *. rewrite IH. destruct (existsb _ _); reflexivity.
  Qed.
  Lemma aset_NoDup k v m : NoDup (akeys m) -> NoDup (akeys (aset k v m)).
  Proof.
    intros H. rewrite akeys_aset. destruct (existsb _ _) eqn:E; [exact H|].
    rewrite <- (rev_involutive (akeys m ++ [k])). apply NoDup_rev. rewrite rev_unit. apply NoDup_rev in H. constructor.
    - rewrite <- in_rev. intros Hin.
      assert (existsb (fun x => eqb x k) (akeys m) = true); [|congruence].
      apply existsb_exists. exists k. split; [exact Hin|apply eqb_refl_].
    - exact H.
  Qed.
End Assoc.

Definition pair_eqb (a b : str * str) : bool := str_eqb (fst a) (fst b) && str_eqb (snd a) (snd b).
Lemma pair_eqb_eq a b : pair_eqb a b = true <-> a = b.
Proof.
  destruct a as [a1 a2], b as [b1 b2]. unfold pair_eqb. cbn.
  rewrite andb_true_iff, !str_eqb_eq. split; [intros [-> ->]; reflexivity | intros H; injection H; auto].
Qed.
