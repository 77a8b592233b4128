(** * SortSpec: the order of the rows of a summary (C113). *)
From Verif Require Import Base PriceModel BookModel BookSpec AccumSpec.

(** The row that shows the amount of its account: of the rows of an account, the one of the lowest level. *)
Definition headline (t : trans) (r : posting) : Prop :=
  In r t /\ forall r', In r' t -> p_acct r' = p_acct r -> p_level r <= p_level r'.
(** Two different accounts under the same rows. *)
Definition siblings (d : Z) (t : trans) (r s : posting) : Prop :=
  p_acct r <> p_acct s /\ forall x, In x t -> (below d (p_acct x) (p_acct r) <-> below d (p_acct x) (p_acct s)).
(** [x] is printed before [y]. *)
Definition precedes (t : trans) (x y : posting) : Prop := exists l1 l2 l3, t = l1 ++ x :: l2 ++ y :: l3.
(** Amounts of at most a thousand million; [v] exceeds [w] by three millionths or more. *)
Definition moderate (v : Qc) : Prop := (- qz (10 ^ 9) <= v)%Qc /\ (v <= qz (10 ^ 9))%Qc.
Definition clearly_more (v w : Qc) : Prop := (w + qz 3 / qz (10 ^ 6) <= v)%Qc.
(** Amounts between a thousand million and one, and seventy thousand million. *)
Definition huge (v : Qc) : Prop := (qz (10 ^ 9 + 1) <= v)%Qc /\ (v <= qz (7 * 10 ^ 10))%Qc.
