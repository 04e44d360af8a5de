(* Proofs about the PES and TS models. *)
From Coq Require Import ZifyBool ZifyNat.
From Verif Require Import Base MFloat MPes PesSpec.

(* ---------- start code scanning as an automaton ---------- *)

Fixpoint has_sc (nz : Z) (l : list Z) : bool :=
  match l with
  | [] => false
  | b :: l' => if b =? 0 then has_sc (nz + 1) l'
               else if (2 <=? nz) && (b =? 1) then true else has_sc 0 l'
  end.

(* zeros at the end, given nz zeros before *)
Fixpoint tail_nz (nz : Z) (l : list Z) : Z :=
  match l with
  | [] => nz
  | b :: l' => if b =? 0 then tail_nz (nz + 1) l' else tail_nz 0 l'
  end.

Lemma tail_nz_nonneg : forall l nz, 0 <= nz -> 0 <= tail_nz nz l.
Proof.
  induction l as [|b l IH]; intros nz H; cbn [tail_nz]; auto.
  destruct (b =? 0); apply IH; lia.
Qed.

Lemma has_sc_app : forall a b nz, has_sc nz (a ++ b) = has_sc nz a || has_sc (tail_nz nz a) b.
Proof.
  induction a as [|x a IH]; intros b nz; cbn [app has_sc tail_nz]; auto.
  destruct (x =? 0); [apply IH|]. destruct (_ && _); [reflexivity|apply IH].
Qed.

Lemma tail_nz_app : forall a b nz, tail_nz nz (a ++ b) = tail_nz (tail_nz nz a) b.
Proof. induction a as [|x a IH]; intros b nz; cbn [app tail_nz]; auto. destruct (x =? 0); apply IH. Qed.

Lemma start_code_has_sc : forall l i, start_code_at l i -> has_sc 0 l = true.
Proof.
  intros l i (a & b & -> & _). rewrite has_sc_app. apply orb_true_iff. right.
  cbn [app has_sc]. cbn. pose proof (tail_nz_nonneg a 0 ltac:(lia)).
  replace (2 <=? tail_nz 0 a + 1 + 1) with true by lia. reflexivity.
Qed.

Lemma has_sc_start_code : forall l nz, 0 <= nz -> has_sc nz l = true ->
  (exists i, start_code_at l i) \/ (nz = 1 /\ exists b, l = 0 :: 1 :: b) \/
  (2 <= nz /\ exists b, l = 1 :: b \/ l = 0 :: 1 :: b \/ exists i, start_code_at l i).
Proof.
  induction l as [|b l IH]; intros nz Hnz H; cbn [has_sc] in H; [discriminate|].
  assert (SH : forall i, start_code_at l i -> start_code_at (b :: l) (i + 1)).
  { intros i (x & y & -> & E). exists (b :: x), y. split; [reflexivity|]. rewrite zlen_cons; lia. }
  destruct (b =? 0) eqn:E0.
  - assert (b = 0) by lia; subst b.
    destruct (IH (nz + 1) ltac:(lia) H) as [(i & Hi)|[(Hz & y & ->)|(Hz & y & Hy)]].
    + left. exists (i + 1). auto.
    + left. exists 0. exists [], y. auto.
    + destruct Hy as [->|[->|(i & Hi)]].
      * destruct (Z.eq_dec nz 1) as [->|].
        -- right; left. split; [lia|]. eauto.
        -- right; right. split; [lia|]. exists y. auto.
      * left. exists 0. exists [], y. auto.
      * left. exists (i + 1). auto.
  - destruct ((2 <=? nz) && (b =? 1)) eqn:E1.
    + right; right. split; [lia|]. exists l. left. f_equal. lia.
    + destruct (IH 0 ltac:(lia) H) as [(i & Hi)|[(Hz & ?)|(Hz & ?)]]; try lia.
      left. exists (i + 1). auto.
Qed.

Lemma no_start_code_iff : forall l, no_start_code l <-> has_sc 0 l = false.
Proof.
  intros l. split.
  - intros H. destruct (has_sc 0 l) eqn:E; auto. exfalso.
    destruct (has_sc_start_code l 0 ltac:(lia) E) as [(i & Hi)|[(? & ?)|(? & ?)]]; try lia.
    eapply H; eauto.
  - intros H i Hi. apply start_code_has_sc in Hi. congruence.
Qed.

(* ---------- escaping ---------- *)

Lemma escape_no_sc : forall l nz, has_sc nz (escape_loop nz l) = false.
Proof.
  induction l as [|b l IH]; intros nz; cbn [escape_loop]; auto.
  destruct (b =? 0) eqn:E0.
  - cbn [has_sc]. rewrite E0. apply IH.
  - destruct ((2 <=? nz) && ((b =? 1) || (b =? 3))) eqn:E1; cbn [has_sc]; rewrite ?E0.
    + cbn. destruct (2 <=? nz); cbn; rewrite ?E0; apply IH.
    + destruct ((2 <=? nz) && (b =? 1)) eqn:E2; [|apply IH].
      apply andb_true_iff in E2. destruct E2 as [A B]. rewrite A, B in E1. discriminate.
Qed.

Lemma copy_escape_no_start_code : forall raw buf out,
  CopyAndEscapeStartCodes raw buf = Some out ->
  exists e, out = buf ++ e /\ no_start_code e.
Proof.
  unfold CopyAndEscapeStartCodes. intros raw buf out H.
  destruct (zlen raw <? 1); [discriminate|]. injection H as <-.
  eexists; split; [reflexivity|]. apply no_start_code_iff, escape_no_sc.
Qed.

Lemma escape_zlen : forall l nz, zlen l <= zlen (escape_loop nz l).
Proof.
  induction l as [|b l IH]; intros nz; cbn [escape_loop]; [lia|].
  destruct (b =? 0); [rewrite !zlen_cons; specialize (IH (nz + 1)); lia|].
  specialize (IH 0). destruct (_ && _); rewrite !zlen_cons; lia.
Qed.

Lemma escape_bytes : forall l nz, bytes l -> bytes (escape_loop nz l).
Proof.
  unfold bytes. induction l as [|b l IH]; intros nz H; cbn [escape_loop]; auto.
  inversion H as [|? ? H1 H2]; subst.
  destruct (b =? 0); [constructor; auto|]. destruct (_ && _); repeat constructor; auto; unfold is_byte in *; lia.
Qed.

(* 00 00 (01|03) as an automaton *)
Fixpoint has_esc (nz : Z) (l : list Z) : bool :=
  match l with
  | [] => false
  | b :: l' => if b =? 0 then has_esc (nz + 1) l'
               else if (2 <=? nz) && ((b =? 1) || (b =? 3)) then true else has_esc 0 l'
  end.

Lemma has_esc_sound : forall l nz, 0 <= nz -> has_esc nz l = true ->
  has_escapable (repeat 0 (Z.to_nat nz) ++ l).
Proof.
  induction l as [|b l IH]; intros nz Hnz H; cbn [has_esc] in H; [discriminate|].
  destruct (b =? 0) eqn:E0.
  - assert (b = 0) by lia; subst b.
    specialize (IH (nz + 1) ltac:(lia) H).
    replace (Z.to_nat (nz + 1)) with (Z.to_nat nz + 1)%nat in IH by lia.
    rewrite repeat_app in IH. rewrite <- app_assoc in IH. exact IH.
  - destruct (_ && _) eqn:E1.
    + exists (repeat 0 (Z.to_nat (nz - 2))), l, b. split; [|lia].
      replace (Z.to_nat nz) with (Z.to_nat (nz - 2) + 2)%nat by lia.
      rewrite repeat_app, <- app_assoc. reflexivity.
    + destruct (IH 0 ltac:(lia) H) as (x & y & z & E & Hz). cbn [repeat Z.to_nat app] in E.
      exists (repeat 0 (Z.to_nat nz) ++ b :: x), y, z. split; auto.
      rewrite E, <- app_assoc. reflexivity.
Qed.

Lemma no_esc : forall l, ~ has_escapable l -> has_esc 0 l = false.
Proof.
  intros l H. destruct (has_esc 0 l) eqn:E; auto.
  exfalso. apply H. apply (has_esc_sound l 0 ltac:(lia) E).
Qed.

Lemma escape_id : forall l nz, has_esc nz l = false -> escape_loop nz l = l.
Proof.
  induction l as [|b l IH]; intros nz H; cbn [has_esc escape_loop] in *; auto.
  destruct (b =? 0); [f_equal; auto|]. destruct (_ && _); [discriminate|]. f_equal; auto.
Qed.

(* three or more zeros followed by 1 or 3 *)
Fixpoint has_long (nz : Z) (l : list Z) : bool :=
  match l with
  | [] => false
  | b :: l' => if b =? 0 then has_long (nz + 1) l'
               else if (3 <=? nz) && ((b =? 1) || (b =? 3)) then true else has_long 0 l'
  end.

Lemma has_long_sound : forall l nz, 0 <= nz -> has_long nz l = true ->
  has_long_zero_run (repeat 0 (Z.to_nat nz) ++ l).
Proof.
  induction l as [|b l IH]; intros nz Hnz H; cbn [has_long] in H; [discriminate|].
  destruct (b =? 0) eqn:E0.
  - assert (b = 0) by lia; subst b.
    specialize (IH (nz + 1) ltac:(lia) H).
    replace (Z.to_nat (nz + 1)) with (Z.to_nat nz + 1)%nat in IH by lia.
    rewrite repeat_app in IH. rewrite <- app_assoc in IH. exact IH.
  - destruct (_ && _) eqn:E1.
    + exists (repeat 0 (Z.to_nat (nz - 3))), l, b. split; [|lia].
      replace (Z.to_nat nz) with (Z.to_nat (nz - 3) + 3)%nat by lia.
      rewrite repeat_app, <- app_assoc. reflexivity.
    + destruct (IH 0 ltac:(lia) H) as (x & y & z & E & Hz). cbn [repeat Z.to_nat app] in E.
      exists (repeat 0 (Z.to_nat nz) ++ b :: x), y, z. split; auto.
      rewrite E, <- app_assoc. reflexivity.
Qed.

Lemma has_long_app : forall a b nz, has_long nz (a ++ b) = has_long nz a || has_long (tail_nz nz a) b.
Proof.
  induction a as [|x a IH]; intros b nz; cbn [app has_long tail_nz]; auto.
  destruct (x =? 0); [apply IH|]. destruct (_ && _); [reflexivity|apply IH].
Qed.

Lemma has_long_complete : forall l, has_long_zero_run l -> has_long 0 l = true.
Proof.
  intros l (a & b & x & -> & Hx). rewrite has_long_app. apply orb_true_iff; right.
  cbn [app has_long]. cbn. pose proof (tail_nz_nonneg a 0 ltac:(lia)).
  replace (x =? 0) with false by lia.
  replace ((3 <=? tail_nz 0 a + 1 + 1 + 1) && ((x =? 1) || (x =? 3))) with true by lia. reflexivity.
Qed.

(* undoing the escape of l, with nz zeros before it, followed by anything *)
Lemma unescape_escape : forall l nz rest, 0 <= nz -> has_long nz l = false ->
  unescape_loop (zlen l) nz (escape_loop nz l ++ rest) = Val (l, zlen (escape_loop nz l)).
Proof.
  induction l as [|b l IH]; intros nz rest Hnz H.
  - cbn [zlen length]. destruct (escape_loop nz [] ++ rest); reflexivity.
  - pose proof (zlen_nonneg _ l).
    cbn [has_long escape_loop] in *. rewrite zlen_cons.
    destruct (b =? 0) eqn:E0.
    + cbn [app unescape_loop]. replace (1 + zlen l <=? 0) with false by lia.
      replace ((b =? 3) && (nz =? 2)) with false by lia. rewrite E0.
      replace (1 + zlen l - 1) with (zlen l) by lia. rewrite IH by (auto; lia).
      cbn [obind]. rewrite zlen_cons. apply f_equal, f_equal2; [reflexivity|lia].
    + destruct ((3 <=? nz) && ((b =? 1) || (b =? 3))) eqn:E3; [discriminate|].
      destruct ((2 <=? nz) && ((b =? 1) || (b =? 3))) eqn:E2.
      * assert (nz = 2) by lia. subst nz.
        cbn [app unescape_loop]. replace (1 + zlen l <=? 0) with false by lia. cbn [Z.eqb andb Pos.eqb].
        rewrite ?andb_false_r; cbn [Z.eqb Pos.eqb]; rewrite ?andb_false_r. rewrite E0.
        replace (1 + zlen l - 1) with (zlen l) by lia. rewrite IH by (auto; lia).
        cbn [obind]. rewrite !zlen_cons. apply f_equal, f_equal2; [reflexivity|lia].
      * cbn [app unescape_loop]. replace (1 + zlen l <=? 0) with false by lia.
        replace ((b =? 3) && (nz =? 2)) with false by lia. rewrite E0.
        replace (1 + zlen l - 1) with (zlen l) by lia. rewrite IH by (auto; lia).
        cbn [obind]. rewrite zlen_cons. apply f_equal, f_equal2; [reflexivity|lia].
Qed.

(* asking for fewer bytes than were escaped stops before the end *)
Lemma unescape_short : forall l nz r rest, 0 <= nz -> 0 <= r < zlen l ->
  exists out n, unescape_loop r nz (escape_loop nz l ++ rest) = Val (out, n) /\ n < zlen (escape_loop nz l).
Proof.
  induction l as [|b l IH]; intros nz r rest Hnz Hr; [unfold zlen in Hr; cbn in Hr; lia|].
  rewrite zlen_cons in Hr. pose proof (escape_zlen (b :: l) nz) as HL. rewrite zlen_cons in HL.
  pose proof (zlen_nonneg _ l).
  destruct (Z.eq_dec r 0) as [->|Hr0].
  { exists [], 0. split; [|lia]. destruct (escape_loop nz (b :: l) ++ rest); reflexivity. }
  clear HL. cbn [escape_loop]. destruct (b =? 0) eqn:E0.
  - cbn [app unescape_loop]. replace (r <=? 0) with false by lia.
    replace ((b =? 3) && (nz =? 2)) with false by lia. rewrite E0.
    destruct (IH (nz + 1) (r - 1) rest ltac:(lia) ltac:(lia)) as (out & n & E & L). rewrite E. cbn [obind].
    do 2 eexists. split; [reflexivity|]. rewrite zlen_cons; lia.
  - destruct ((2 <=? nz) && ((b =? 1) || (b =? 3))) eqn:E2.
    + cbn [app unescape_loop]. replace (r <=? 0) with false by lia.
      destruct (nz =? 2) eqn:EZ.
      * cbn [Z.eqb andb Pos.eqb]. rewrite ?andb_false_r; cbn [Z.eqb Pos.eqb]; rewrite ?andb_false_r. rewrite E0.
        destruct (IH 0 (r - 1) rest ltac:(lia) ltac:(lia)) as (out & n & E & L). rewrite E. cbn [obind].
        do 2 eexists. split; [reflexivity|]. rewrite !zlen_cons; lia.
      * cbn [Z.eqb andb Pos.eqb].
        destruct (r - 1 <=? 0) eqn:ER.
        { cbn [obind]. do 2 eexists. split; [reflexivity|].
          rewrite !zlen_cons. pose proof (zlen_nonneg _ (escape_loop 0 l)). lia. }
        rewrite ?andb_false_r; cbn [Z.eqb Pos.eqb]; rewrite ?andb_false_r. rewrite E0.
        destruct (IH 0 (r - 1 - 1) rest ltac:(lia) ltac:(lia)) as (out & n & E & L). rewrite E. cbn [obind].
        do 2 eexists. split; [reflexivity|]. rewrite !zlen_cons; lia.
    + cbn [app unescape_loop]. replace (r <=? 0) with false by lia.
      replace ((b =? 3) && (nz =? 2)) with false by lia. rewrite E0.
      destruct (IH 0 (r - 1) rest ltac:(lia) ltac:(lia)) as (out & n & E & L). rewrite E. cbn [obind].
      do 2 eexists. split; [reflexivity|]. rewrite zlen_cons; lia.
Qed.

(* with a long run of zeros an inserted 3 is kept, so not all is consumed *)
Lemma unescape_long : forall l nz rest, 0 <= nz -> has_long nz l = true ->
  exists out n, unescape_loop (zlen l) nz (escape_loop nz l ++ rest) = Val (out, n) /\ n < zlen (escape_loop nz l).
Proof.
  induction l as [|b l IH]; intros nz rest Hnz H; cbn [has_long] in H; [discriminate|].
  pose proof (zlen_nonneg _ l). rewrite zlen_cons. cbn [escape_loop].
  destruct (b =? 0) eqn:E0.
  - cbn [app unescape_loop]. replace (1 + zlen l <=? 0) with false by lia.
    replace ((b =? 3) && (nz =? 2)) with false by lia. rewrite E0.
    replace (1 + zlen l - 1) with (zlen l) by lia.
    destruct (IH (nz + 1) rest ltac:(lia) H) as (out & n & E & L). rewrite E. cbn [obind].
    do 2 eexists. split; [reflexivity|]. rewrite zlen_cons; lia.
  - destruct ((3 <=? nz) && ((b =? 1) || (b =? 3))) eqn:E3.
    + replace ((2 <=? nz) && ((b =? 1) || (b =? 3))) with true by lia.
      cbn [app unescape_loop]. replace (1 + zlen l <=? 0) with false by lia.
      replace ((3 =? 3) && (nz =? 2)) with false by lia. cbn [Z.eqb].
      replace (1 + zlen l - 1) with (zlen l) by lia.
      destruct (zlen l <=? 0) eqn:EL.
      { cbn [obind]. do 2 eexists. split; [reflexivity|].
        rewrite !zlen_cons. pose proof (zlen_nonneg _ (escape_loop 0 l)). lia. }
      rewrite ?andb_false_r; cbn [Z.eqb Pos.eqb]; rewrite ?andb_false_r. rewrite E0.
      destruct (unescape_short l 0 (zlen l - 1) rest ltac:(lia) ltac:(lia)) as (out & n & E & L).
      rewrite E. cbn [obind]. do 2 eexists. split; [reflexivity|]. rewrite !zlen_cons; lia.
    + destruct ((2 <=? nz) && ((b =? 1) || (b =? 3))) eqn:E2.
      * assert (nz = 2) by lia. subst nz.
        cbn [app unescape_loop]. replace (1 + zlen l <=? 0) with false by lia. cbn [Z.eqb andb Pos.eqb].
        rewrite ?andb_false_r; cbn [Z.eqb Pos.eqb]; rewrite ?andb_false_r. rewrite E0.
        replace (1 + zlen l - 1) with (zlen l) by lia.
        destruct (IH 0 rest ltac:(lia) H) as (out & n & E & L). rewrite E. cbn [obind].
        do 2 eexists. split; [reflexivity|]. rewrite !zlen_cons; lia.
      * cbn [app unescape_loop]. replace (1 + zlen l <=? 0) with false by lia.
        replace ((b =? 3) && (nz =? 2)) with false by lia. rewrite E0.
        replace (1 + zlen l - 1) with (zlen l) by lia.
        destruct (IH 0 rest ltac:(lia) H) as (out & n & E & L). rewrite E. cbn [obind].
        do 2 eexists. split; [reflexivity|]. rewrite zlen_cons; lia.
Qed.

Lemma skipn_zlen_app : forall A (a b : list A), skipn (Z.to_nat (zlen a)) (a ++ b) = b.
Proof.
  intros A a b. unfold zlen. rewrite Nat2Z.id, skipn_app, skipn_all, Nat.sub_diag. reflexivity.
Qed.

(* the parser's removal undoes the muxer's escaping exactly when no run of three
   or more zeros is followed by 1 or 3 *)
Lemma remove_emulation_iff : forall p pre rest, p <> [] ->
  (RemoveEmulation (pre ++ escape_loop 0 p ++ rest) (zlen pre) (zlen p)
     = Val (Some (p, zlen (escape_loop 0 p)))) <-> ~ has_long_zero_run p.
Proof.
  intros p pre rest Hp. unfold RemoveEmulation.
  assert (Hl : 0 < zlen p) by (destruct p; [congruence|rewrite zlen_cons; pose proof (zlen_nonneg _ p); lia]).
  replace (zlen p =? 0) with false by lia.
  pose proof (zlen_nonneg _ (escape_loop 0 p ++ rest)).
  replace (zlen (pre ++ escape_loop 0 p ++ rest) <? zlen pre) with false by (rewrite zlen_app; lia).
  rewrite skipn_zlen_app. split.
  - intros E HL. apply has_long_complete in HL.
    destruct (unescape_long p 0 rest ltac:(lia) HL) as (out & n & E2 & L). rewrite E2 in E. cbn [obind] in E.
    injection E as _ E. lia.
  - intros HN. rewrite unescape_escape; [reflexivity|lia|].
    destruct (has_long 0 p) eqn:E; auto. exfalso. apply HN.
    apply (has_long_sound p 0 ltac:(lia) E).
Qed.
