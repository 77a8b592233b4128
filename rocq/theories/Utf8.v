(** * Utf8: Go's UTF-8 decoding and encoding (unicode/utf8 DecodeRune, bufio ReadRune, bytes.Buffer WriteRune).

    A byte string is a list of numbers below 256, a rune a number. Used by /repo/loader/lexer.go:108-123 (next: ReadRune),
    the WriteRune calls of lexer.go and parser.go, and /repo/cmd/app/print.go:348-435 (DecodeRuneInString). *)
From Verif Require Import Base.
From Coq Require Import ZifyBool ZifyNat Zify.
Ltac Zify.zify_post_hook ::= Z.to_euclidean_division_equations.

(** utf8.RuneError *)
Definition rune_error : Z := 65533.
(** A Unicode scalar value: not a surrogate. *)
Definition scalar (r : Z) : Prop := (0 <= r < 55296) \/ (57344 <= r <= 1114111).
Definition scalarb (r : Z) : bool := ((0 <=? r) && (r <? 55296)) || ((57344 <=? r) && (r <=? 1114111)).

(** unicode/utf8: EncodeRune *)
Definition enc (r : Z) : str :=
  if negb (scalarb r) then [239; 191; 189]
  else if r <? 128 then [r]
  else if r <? 2048 then [192 + r / 64; 128 + r mod 64]
  else if r <? 65536 then [224 + r / 4096; 128 + r / 64 mod 64; 128 + r mod 64]
  else [240 + r / 262144; 128 + r / 4096 mod 64; 128 + r / 64 mod 64; 128 + r mod 64].
Definition encode (rs : list Z) : str := concat (map enc rs).

Definition between (lo x hi : Z) : bool := (lo <=? x) && (x <=? hi).
(** unicode/utf8 acceptRanges: allowed second bytes *)
Definition ok2 (b0 b1 : Z) : bool := between 194 b0 223 && between 128 b1 191.
Definition ok3 (b0 b1 b2 : Z) : bool :=
  between 224 b0 239 && between (if b0 =? 224 then 160 else 128) b1 (if b0 =? 237 then 159 else 191) && between 128 b2 191.
Definition ok4 (b0 b1 b2 b3 : Z) : bool :=
  between 240 b0 244 && between (if b0 =? 240 then 144 else 128) b1 (if b0 =? 244 then 143 else 191) && between 128 b2 191 && between 128 b3 191.
(** unicode/utf8: DecodeRune applied again and again; an invalid or cut-off sequence is one RuneError per byte. *)
Fixpoint decode (s : str) : list Z :=
  match s with
  | [] => []
  | b0 :: s1 =>
      if b0 <? 128 then b0 :: decode s1 else
      match s1 with
      | [] => [rune_error]
      | b1 :: s2 =>
          if ok2 b0 b1 then ((b0 - 192) * 64 + (b1 - 128)) :: decode s2 else
          match s2 with
          | [] => rune_error :: decode s1
          | b2 :: s3 =>
              if ok3 b0 b1 b2 then ((b0 - 224) * 4096 + (b1 - 128) * 64 + (b2 - 128)) :: decode s3 else
              match s3 with
              | [] => rune_error :: decode s1
              | b3 :: s4 =>
                  if ok4 b0 b1 b2 b3 then ((b0 - 240) * 262144 + (b1 - 128) * 4096 + (b2 - 128) * 64 + (b3 - 128)) :: decode s4
                  else rune_error :: decode s1
              end
          end
      end
  end.

(** ** Proofs *)
Lemma scalarb_ok r : scalarb r = true <-> scalar r.
Proof. unfold scalarb, scalar. lia. Qed.
Lemma enc_cases r : scalar r ->
  (0 <= r < 128 /\ enc r = [r]) \/
  (128 <= r < 2048 /\ enc r = [192 + r / 64; 128 + r mod 64]) \/
  (2048 <= r < 65536 /\ enc r = [224 + r / 4096; 128 + r / 64 mod 64; 128 + r mod 64]) \/
  (65536 <= r <= 1114111 /\ enc r = [240 + r / 262144; 128 + r / 4096 mod 64; 128 + r / 64 mod 64; 128 + r mod 64]).
Proof.
  intros H. pose proof (proj2 (scalarb_ok r) H) as Hb. unfold enc. rewrite Hb. cbn [negb]. unfold scalar in H.
  destruct (Z.ltb_spec r 128); [left; split; [lia|reflexivity]|]. destruct (Z.ltb_spec r 2048); [right; left; split; [lia|reflexivity]|].
  destruct (Z.ltb_spec r 65536); [right; right; left; split; [lia|reflexivity]|right; right; right; split; [lia|reflexivity]].
Qed.
Lemma decode_enc r s : scalar r -> decode (enc r ++ s) = r :: decode s.
Proof.
  intros H. destruct (enc_cases r H) as [[Hr ->]|[[Hr ->]|[[Hr ->]|[Hr ->]]]]; cbn [app decode].
  - destruct (Z.ltb_spec r 128); [reflexivity|lia].
  - destruct (Z.ltb_spec (192 + r / 64) 128); [lia|]. assert (E : ok2 (192 + r / 64) (128 + r mod 64) = true) by (unfold ok2, between; lia). rewrite E. f_equal. lia.
  - destruct (Z.ltb_spec (224 + r / 4096) 128); [lia|]. assert (E : ok2 (224 + r / 4096) (128 + r / 64 mod 64) = false) by (unfold ok2, between; lia). rewrite E.
    assert (E3 : ok3 (224 + r / 4096) (128 + r / 64 mod 64) (128 + r mod 64) = true).
    { unfold ok3, between. destruct (Z.eqb_spec (224 + r / 4096) 224), (Z.eqb_spec (224 + r / 4096) 237); unfold scalar in H; lia. }
    rewrite E3. f_equal. lia.
  - destruct (Z.ltb_spec (240 + r / 262144) 128); [lia|]. assert (E : ok2 (240 + r / 262144) (128 + r / 4096 mod 64) = false) by (unfold ok2, between; lia). rewrite E.
    assert (E3 : ok3 (240 + r / 262144) (128 + r / 4096 mod 64) (128 + r / 64 mod 64) = false) by (unfold ok3, between; lia). rewrite E3.
    assert (E4 : ok4 (240 + r / 262144) (128 + r / 4096 mod 64) (128 + r / 64 mod 64) (128 + r mod 64) = true).
    { unfold ok4, between. destruct (Z.eqb_spec (240 + r / 262144) 240), (Z.eqb_spec (240 + r / 262144) 244); lia. }
    rewrite E4. f_equal. lia.
Qed.
Lemma decode_encode_app rs s : Forall scalar rs -> decode (encode rs ++ s) = rs ++ decode s.
Proof.
  induction 1 as [|r rs Hr _ IH]; [reflexivity|]. unfold encode in *. cbn [map concat app]. rewrite <- app_assoc, decode_enc by exact Hr. rewrite IH. reflexivity.
Qed.
Lemma decode_encode rs : Forall scalar rs -> decode (encode rs) = rs.
Proof. intros H. rewrite <- (app_nil_r (encode rs)), decode_encode_app by exact H. apply app_nil_r. Qed.
Lemma encode_app a b : encode (a ++ b) = encode a ++ encode b.
Proof. unfold encode. rewrite map_app, concat_app. reflexivity. Qed.
Lemma encode_inj a b : Forall scalar a -> Forall scalar b -> encode a = encode b -> a = b.
Proof. intros Ha Hb E. rewrite <- (decode_encode a Ha), <- (decode_encode b Hb), E. reflexivity. Qed.

(** Every decoded rune of a byte string is a scalar value. *)
Lemma decode_scalar s : Forall (fun b => 0 <= b < 256) s -> Forall scalar (decode s).
Proof.
  assert (H : forall n s, (length s <= n)%nat -> Forall (fun b => 0 <= b < 256) s -> Forall scalar (decode s)).
  2: { intros Hs. exact (H (length s) s (Nat.le_refl _) Hs). }
  assert (Hre : scalar rune_error) by (unfold scalar, rune_error; lia).
  induction n as [|n IH]; intros [|b0 s1] Hn Hs; try constructor; [cbn [length] in Hn; lia|]. cbn [length] in Hn. inversion Hs as [|? ? H0 Hs1]; subst. cbn [decode].
  assert (I1 : Forall scalar (decode s1)) by (apply IH; [lia|exact Hs1]).
  destruct (Z.ltb_spec b0 128); [constructor; [unfold scalar; lia|exact I1]|].
  destruct s1 as [|b1 s2]; [constructor; [exact Hre|constructor]|]. cbn [length] in Hn. inversion Hs1 as [|? ? H1 Hs2]; subst.
  assert (I2 : Forall scalar (decode s2)) by (apply IH; [lia|exact Hs2]).
  destruct (ok2 b0 b1) eqn:E2; [constructor; [unfold ok2, between in E2; unfold scalar; lia|exact I2]|].
  destruct s2 as [|b2 s3]; [constructor; [exact Hre|exact I1]|]. cbn [length] in Hn. inversion Hs2 as [|? ? H2 Hs3]; subst.
  assert (I3 : Forall scalar (decode s3)) by (apply IH; [lia|exact Hs3]).
  destruct (ok3 b0 b1 b2) eqn:E3.
  { constructor; [|exact I3]. unfold ok3, between in E3. unfold scalar. destruct (Z.eqb_spec b0 224), (Z.eqb_spec b0 237); lia. }
  destruct s3 as [|b3 s4]; [constructor; [exact Hre|exact I1]|]. cbn [length] in Hn. inversion Hs3 as [|? ? H3 Hs4]; subst.
  assert (I4 : Forall scalar (decode s4)) by (apply IH; [lia|exact Hs4]).
  destruct (ok4 b0 b1 b2 b3) eqn:E4; [|constructor; [exact Hre|exact I1]].
  constructor; [|exact I4]. unfold ok4, between in E4. unfold scalar. destruct (Z.eqb_spec b0 240), (Z.eqb_spec b0 244); lia.
Qed.
Lemma enc_bytes r : Forall (fun b => 0 <= b < 256) (enc r).
Proof.
  destruct (scalarb r) eqn:E.
  - apply scalarb_ok in E. destruct (enc_cases r E) as [[Hr ->]|[[Hr ->]|[[Hr ->]|[Hr ->]]]]; repeat constructor; lia.
  - unfold enc. rewrite E. cbn [negb]. repeat constructor; lia.
Qed.
Lemma encode_bytes rs : Forall (fun b => 0 <= b < 256) (encode rs).
Proof. induction rs as [|r rs IH]; [constructor|]. unfold encode. cbn [map concat]. apply Forall_app. split; [apply enc_bytes|exact IH]. Qed.

(** Byte order is code point order. *)
Lemma enc_lt a b x y : scalar a -> scalar b -> a < b -> str_cmp (enc a ++ x) (enc b ++ y) = Lt.
Proof.
  intros Ha Hb L.
  assert (C : forall p q (u v : str), p < q -> str_cmp (p :: u) (q :: v) = Lt) by (intros p q u v H; cbn [str_cmp]; rewrite (proj2 (Z.compare_lt_iff p q) H); reflexivity).
  assert (D : forall p q (u v : str), p <= q -> (p = q -> str_cmp u v = Lt) -> str_cmp (p :: u) (q :: v) = Lt).
  { intros p q u v H1 H2. destruct (Z.eq_dec p q) as [->|N]; [cbn [str_cmp]; rewrite Z.compare_refl; auto|apply C; lia]. }
  destruct (enc_cases a Ha) as [[Hr ->]|[[Hr ->]|[[Hr ->]|[Hr ->]]]]; destruct (enc_cases b Hb) as [[Hr' ->]|[[Hr' ->]|[[Hr' ->]|[Hr' ->]]]]; cbn [app]; try (exfalso; lia); try (apply C; lia).
  - apply D; [lia|]. intros E. apply C. lia.
  - apply D; [lia|]. intros E. apply D; [lia|]. intros E2. apply C. lia.
  - apply D; [lia|]. intros E. apply D; [lia|]. intros E2. apply D; [lia|]. intros E3. apply C. lia.
Qed.
Lemma str_cmp_same p x y : str_cmp (p ++ x) (p ++ y) = str_cmp x y.
Proof. induction p as [|c p IH]; [reflexivity|]. cbn [app str_cmp]. rewrite Z.compare_refl. exact IH. Qed.
Lemma enc_nonempty r : enc r <> [].
Proof. unfold enc. destruct (negb (scalarb r)), (r <? 128), (r <? 2048), (r <? 65536); discriminate. Qed.
Lemma encode_cmp : forall a b, Forall scalar a -> Forall scalar b -> str_cmp (encode a) (encode b) = str_cmp a b.
Proof.
  induction a as [|x a IH]; intros [|y b] Ha Hb.
  - reflexivity.
  - unfold encode. cbn [map concat str_cmp]. pose proof (enc_nonempty y) as H. destruct (enc y); [congruence|reflexivity].
  - unfold encode. cbn [map concat str_cmp]. pose proof (enc_nonempty x) as H. destruct (enc x); [congruence|reflexivity].
  - inversion Ha; inversion Hb; subst. unfold encode in *. cbn [map concat str_cmp]. destruct (Z.compare_spec x y) as [->|L|L].
    + rewrite str_cmp_same. apply IH; assumption.
    + apply enc_lt; assumption.
    + rewrite (str_cmp_anti (enc y ++ concat (map enc b))). rewrite enc_lt by assumption. reflexivity.
Qed.
(** An ASCII string is its own encoding. *)
Lemma decode_ascii s : Forall (fun c => 0 <= c < 128) s -> decode s = s.
Proof. induction 1 as [|c s Hc _ IH]; [reflexivity|]. cbn [decode]. destruct (Z.ltb_spec c 128); [rewrite IH; reflexivity|lia]. Qed.
Lemma encode_ascii s : Forall (fun c => 0 <= c < 128) s -> encode s = s.
Proof.
  induction 1 as [|c s Hc _ IH]; [reflexivity|]. unfold encode in *. cbn [map concat]. rewrite IH. unfold enc.
  assert (E : scalarb c = true) by (apply scalarb_ok; unfold scalar; lia). rewrite E. cbn [negb]. destruct (Z.ltb_spec c 128); [reflexivity|lia].
Qed.
Lemma ascii_scalar s : Forall (fun c => 0 <= c < 128) s -> Forall scalar s.
Proof. apply Forall_impl. intros c H. unfold scalar. lia. Qed.
