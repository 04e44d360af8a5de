(* Common numeric and byte-list vocabulary used by the models and the
   specifications.  Nothing here models a particular function of /repo; machine
   integer conversions follow the usual two's complement rules. *)
From Coq Require Export ZArith List Lia Bool.
From Coq Require Import ZifyBool ZifyNat.
Export ListNotations.
Global Open Scope Z_scope.

(* ---------- machine integers ---------- *)

Definition pow2 (k : Z) : Z := 2 ^ k.

(* conversion to an unsigned integer type of k bits *)
Definition wrapu (k v : Z) : Z := v mod 2 ^ k.
Definition wrap8 (v : Z) : Z := v mod 256.
Definition wrap16 (v : Z) : Z := v mod 65536.
Definition wrap32 (v : Z) : Z := v mod 4294967296.
Definition wrap64 (v : Z) : Z := v mod 18446744073709551616.

(* conversion to a signed (two's complement) integer type of k bits *)
Definition wraps (k v : Z) : Z :=
  let m := v mod 2 ^ k in if m <? 2 ^ (k - 1) then m else m - 2 ^ k.
Definition sint8 (v : Z) : Z := wraps 8 v.
Definition sint16 (v : Z) : Z := wraps 16 v.
Definition sint32 (v : Z) : Z := wraps 32 v.
Definition sint64 (v : Z) : Z := wraps 64 v.

Definition is_byte (b : Z) : Prop := 0 <= b < 256.
Definition is_u32 (v : Z) : Prop := 0 <= v < 4294967296.
Definition is_u64 (v : Z) : Prop := 0 <= v < 18446744073709551616.
Definition is_s64 (v : Z) : Prop := -9223372036854775808 <= v < 9223372036854775808.
Definition bytes (l : list Z) : Prop := Forall is_byte l.

Definition byteb (b : Z) : bool := (0 <=? b) && (b <? 256).
Definition bytesb (l : list Z) : bool := forallb byteb l.

Definition zlen {A} (l : list A) : Z := Z.of_nat (length l).

(* LLONG_MAX and friends *)
Definition LLONG_MAX : Z := 9223372036854775807.
Definition INT_MAX : Z := 2147483647.
Definition INT_MIN : Z := -2147483648.

(* ---------- big-endian byte strings ---------- *)

(* the n low-order bytes of v, most significant first *)
Fixpoint be_bytes (n : nat) (v : Z) : list Z :=
  match n with
  | O => []
  | S n' => (v / 2 ^ (8 * Z.of_nat n')) mod 256 :: be_bytes n' v
  end.

(* the number denoted by a big-endian byte string *)
Fixpoint be_val_acc (acc : Z) (l : list Z) : Z :=
  match l with [] => acc | b :: l' => be_val_acc (acc * 256 + b) l' end.
Definition be_val (l : list Z) : Z := be_val_acc 0 l.

(* ---------- outcomes: a value, or undefined behaviour ---------- *)

Inductive outcome (A : Type) : Type :=
| Val (a : A)
| UB.
Arguments Val {A} a.
Arguments UB {A}.

Definition obind {A B} (m : outcome A) (f : A -> outcome B) : outcome B :=
  match m with Val a => f a | UB => UB end.

(* signed 32-bit addition: overflow is undefined behaviour *)
Definition add_s32 (a b : Z) : outcome Z :=
  let r := a + b in
  if (INT_MIN <=? r) && (r <=? INT_MAX) then Val r else UB.

(* ---------- facts ---------- *)

Ltac zdm := Z.div_mod_to_equations; lia.

Lemma be_bytes_length : forall n v, length (be_bytes n v) = n.
Proof. induction n as [|n IH]; intros v; cbn [be_bytes length]; auto. Qed.

Lemma be_bytes_zlen : forall n v, zlen (be_bytes n v) = Z.of_nat n.
Proof. intros; unfold zlen; rewrite be_bytes_length; reflexivity. Qed.

Lemma be_bytes_bytes : forall n v, bytes (be_bytes n v).
Proof.
  unfold bytes; induction n as [|n IH]; intros v; cbn [be_bytes]; constructor; auto.
  unfold is_byte. apply Z.mod_pos_bound; lia.
Qed.

Lemma pow2_8S : forall n, 2 ^ (8 * Z.of_nat (S n)) = 256 * 2 ^ (8 * Z.of_nat n).
Proof.
  intros n. replace (8 * Z.of_nat (S n)) with (8 + 8 * Z.of_nat n) by lia.
  rewrite Z.pow_add_r by lia. reflexivity.
Qed.

Lemma pow2_pos : forall k, 0 <= k -> 0 < 2 ^ k.
Proof. intros; apply Z.pow_pos_nonneg; lia. Qed.

Lemma be_val_acc_spec : forall l acc,
  be_val_acc acc l = acc * 2 ^ (8 * zlen l) + be_val l.
Proof.
  unfold be_val. induction l as [|b l IH]; intros acc; unfold zlen in *; cbn [be_val_acc length].
  - simpl (2 ^ _). lia.
  - rewrite IH. rewrite (IH (0 * 256 + b)). rewrite pow2_8S. lia.
Qed.

Lemma be_val_cons : forall b l, be_val (b :: l) = b * 2 ^ (8 * zlen l) + be_val l.
Proof. intros. unfold be_val at 1. cbn [be_val_acc]. rewrite be_val_acc_spec. f_equal; lia. Qed.

Lemma be_val_app : forall a b, be_val (a ++ b) = be_val a * 2 ^ (8 * zlen b) + be_val b.
Proof.
  induction a as [|x a IH]; intros b; cbn [app].
  - unfold be_val at 2. cbn. lia.
  - rewrite !be_val_cons, IH. unfold zlen. rewrite app_length, Nat2Z.inj_add.
    rewrite Z.mul_add_distr_l, Z.pow_add_r by lia. ring.
Qed.

Lemma be_val_bound : forall l, bytes l -> 0 <= be_val l < 2 ^ (8 * zlen l).
Proof.
  induction l as [|b l IH]; intros Hb.
  - unfold zlen, be_val; cbn; lia.
  - inversion Hb as [|x xs Hx Hxs]; subst. rewrite be_val_cons.
    specialize (IH Hxs). unfold zlen in *. cbn [length]. rewrite pow2_8S.
    unfold is_byte in Hx. nia.
Qed.

Lemma be_val_be_bytes : forall n v, be_val (be_bytes n v) = v mod 2 ^ (8 * Z.of_nat n).
Proof.
  induction n as [|n IH]; intros v.
  - cbn. unfold be_val; cbn. rewrite Z.mod_1_r. reflexivity.
  - cbn [be_bytes]. rewrite be_val_cons, IH, be_bytes_zlen, pow2_8S.
    pose proof (pow2_pos (8 * Z.of_nat n) ltac:(lia)) as Hp.
    set (p := 2 ^ (8 * Z.of_nat n)) in *.
    rewrite (Z.mul_comm 256 p).
    rewrite Z.rem_mul_r by lia. lia.
Qed.

Lemma be_bytes_val : forall l, bytes l -> be_bytes (length l) (be_val l) = l.
Proof.
  induction l as [|b l IH]; intros Hb; cbn [length be_bytes]; auto.
  inversion Hb as [|x xs Hx Hxs]; subst.
  pose proof (be_val_bound l Hxs) as Hl. unfold zlen in Hl.
  pose proof (pow2_pos (8 * Z.of_nat (length l)) ltac:(lia)) as Hp.
  f_equal.
  - rewrite be_val_cons. unfold zlen. rewrite Z.div_add_l by lia.
    rewrite (Z.div_small (be_val l)) by lia.
    rewrite Z.add_0_r. apply Z.mod_small. exact Hx.
  - transitivity (be_bytes (length l) (be_val l)); [|apply IH; assumption].
    rewrite be_val_cons. unfold zlen.
    clear IH Hb Hxs. generalize (be_val l) as w. intros w.
    assert (G : forall n k, (n <= k)%nat -> be_bytes n (b * 2 ^ (8 * Z.of_nat k) + w) = be_bytes n w).
    { induction n as [|n IHn]; intros k Hk; cbn [be_bytes]; auto.
      f_equal; [|apply IHn; lia].
      replace (8 * Z.of_nat k) with ((8 * Z.of_nat (k - S n) + 8) + 8 * Z.of_nat n) by lia.
      rewrite Z.pow_add_r by lia.
      rewrite Z.mul_assoc, Z.div_add_l by (pose proof (pow2_pos (8 * Z.of_nat n)); lia).
      rewrite Z.pow_add_r by lia. change (2 ^ 8) with 256.
      rewrite Z.mul_assoc, Z.add_comm, Z_mod_plus_full. reflexivity. }
    apply G. lia.
Qed.

(* the low n bytes only depend on the value modulo 2^(8n) *)
Lemma be_bytes_mod : forall n v w,
  v mod 2 ^ (8 * Z.of_nat n) = w mod 2 ^ (8 * Z.of_nat n) -> be_bytes n v = be_bytes n w.
Proof.
  intros n v w H.
  rewrite <- (be_bytes_val (be_bytes n v)) by apply be_bytes_bytes.
  rewrite <- (be_bytes_val (be_bytes n w)) by apply be_bytes_bytes.
  rewrite !be_bytes_length, !be_val_be_bytes, H. reflexivity.
Qed.

Lemma be_bytes_inj : forall n v w,
  0 <= v < 2 ^ (8 * Z.of_nat n) -> 0 <= w < 2 ^ (8 * Z.of_nat n) ->
  be_bytes n v = be_bytes n w -> v = w.
Proof.
  intros n v w Hv Hw H. apply (f_equal be_val) in H.
  rewrite !be_val_be_bytes, !Z.mod_small in H by lia. exact H.
Qed.

(* disjoint "or" with a single higher bit is addition *)
Lemma lor_pow2 : forall v k, 0 <= k -> 0 <= v < 2 ^ k -> Z.lor v (2 ^ k) = v + 2 ^ k.
Proof.
  intros v k Hk Hv. symmetry.
  rewrite <- Z.lxor_lor.
  - apply Z.add_nocarry_lxor.
    apply Z.bits_inj'. intros i Hi. rewrite Z.land_spec, Z.bits_0.
    rewrite Z.pow2_bits_eqb by lia.
    destruct (Z.eqb_spec k i) as [->|]; [|apply andb_false_r].
    rewrite (proj2 (Z.testbit_false v i Hi)); auto.
    rewrite Z.div_small by lia. reflexivity.
  - apply Z.bits_inj'. intros i Hi. rewrite Z.land_spec, Z.bits_0.
    rewrite Z.pow2_bits_eqb by lia.
    destruct (Z.eqb_spec k i) as [->|]; [|apply andb_false_r].
    rewrite (proj2 (Z.testbit_false v i Hi)); auto.
    rewrite Z.div_small by lia. reflexivity.
Qed.

(* x << k | b with b below 2^k is addition *)
Lemma lor_shiftl_low : forall a b k, 0 <= k -> 0 <= b < 2 ^ k ->
  Z.lor (Z.shiftl a k) b = a * 2 ^ k + b.
Proof.
  intros a b k Hk Hb.
  assert (D : Z.land (Z.shiftl a k) b = 0).
  { apply Z.bits_inj'. intros i Hi. rewrite Z.land_spec, Z.bits_0.
    destruct (Z.ltb_spec i k) as [Hlt|Hge].
    - rewrite Z.shiftl_spec_low by lia. reflexivity.
    - rewrite (proj2 (Z.testbit_false b i Hi)); [apply andb_false_r|].
      rewrite Z.div_small; auto. split; [lia|].
      apply Z.lt_le_trans with (2 ^ k); [lia|]. apply Z.pow_le_mono_r; lia. }
  rewrite <- Z.lxor_lor by exact D. rewrite <- Z.add_nocarry_lxor by exact D.
  rewrite Z.shiftl_mul_pow2 by lia. reflexivity.
Qed.

Lemma wrap8_byte : forall v, is_byte (wrap8 v).
Proof. intros; unfold is_byte, wrap8; apply Z.mod_pos_bound; lia. Qed.

Lemma wraps_range : forall k v, 1 <= k -> - 2 ^ (k - 1) <= wraps k v < 2 ^ (k - 1).
Proof.
  intros k v Hk. unfold wraps.
  assert (E : 2 ^ k = 2 * 2 ^ (k - 1)).
  { replace k with (1 + (k - 1)) at 1 by lia. rewrite Z.pow_add_r by lia. reflexivity. }
  pose proof (pow2_pos (k - 1) ltac:(lia)).
  pose proof (Z.mod_pos_bound v (2 ^ k) ltac:(lia)).
  destruct (Z.ltb_spec (v mod 2 ^ k) (2 ^ (k - 1))); lia.
Qed.

Lemma wraps_id : forall k v, 1 <= k -> - 2 ^ (k - 1) <= v < 2 ^ (k - 1) -> wraps k v = v.
Proof.
  intros k v Hk Hv. unfold wraps.
  assert (E : 2 ^ k = 2 * 2 ^ (k - 1)).
  { replace k with (1 + (k - 1)) at 1 by lia. rewrite Z.pow_add_r by lia. reflexivity. }
  pose proof (pow2_pos (k - 1) ltac:(lia)).
  destruct (Z_lt_le_dec v 0) as [Hn|Hn].
  - rewrite <- (Z_mod_plus_full v 1), Z.mod_small by lia.
    destruct (Z.ltb_spec (v + 1 * 2 ^ k) (2 ^ (k - 1))); lia.
  - rewrite Z.mod_small by lia.
    destruct (Z.ltb_spec v (2 ^ (k - 1))); lia.
Qed.

Lemma wraps_mod : forall k v, 1 <= k -> wraps k v mod 2 ^ k = v mod 2 ^ k.
Proof.
  intros k v Hk. unfold wraps. pose proof (pow2_pos k ltac:(lia)).
  destruct (_ <? _).
  - apply Z.mod_mod; lia.
  - replace (v mod 2 ^ k - 2 ^ k) with (v mod 2 ^ k + (-1) * 2 ^ k) by lia.
    rewrite Z_mod_plus_full. apply Z.mod_mod; lia.
Qed.

Lemma bytes_app : forall a b, bytes (a ++ b) <-> bytes a /\ bytes b.
Proof. intros; unfold bytes; apply Forall_app. Qed.

Lemma bytesb_spec : forall l, bytesb l = true <-> bytes l.
Proof.
  intros l. unfold bytesb, bytes, byteb, is_byte. rewrite forallb_forall, Forall_forall.
  split; intros H x Hx; specialize (H x Hx); lia.
Qed.

Lemma zlen_app : forall A (a b : list A), zlen (a ++ b) = zlen a + zlen b.
Proof. intros; unfold zlen; rewrite app_length; lia. Qed.

Lemma zlen_nonneg : forall A (l : list A), 0 <= zlen l.
Proof. intros; unfold zlen; lia. Qed.

Lemma zlen_cons : forall A (x : A) l, zlen (x :: l) = 1 + zlen l.
Proof. intros; unfold zlen; cbn [length]; lia. Qed.

Lemma zlen_nil : forall A, zlen (@nil A) = 0.
Proof. reflexivity. Qed.
