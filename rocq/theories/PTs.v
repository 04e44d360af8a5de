(* Proofs: TS packetisation and the VP9 superframe index. *)
From Coq Require Import ZifyBool ZifyNat.
From Verif Require Import Base MFloat MPes PesSpec PPes PPesPts PPesStream.

(* ---------- TS ---------- *)

Lemma ts_header_fields : forall s a cc, 0 <= cc < 16 ->
  exists b1 b3, TsHeader_Write s a cc = [0x47; b1; 0x20; b3] /\
    ((b1 / 64) mod 2 =? 1) = s /\ b3 mod 16 = cc /\ (b3 / 16) mod 4 = (if a then 3 else 1).
Proof.
  intros s a cc Hcc.
  assert (C : forall c, In c (map Z.of_nat (seq 0 16)) -> 
     (let b3 := wrap8 (Z.lor (Z.lor (Z.shiftl (if a then 1 else 0) 5) (Z.shiftl 1 4)) c) in
      (b3 mod 16 =? c) && ((b3 / 16) mod 4 =? (if a then 3 else 1))) = true).
  { intros c Hc. apply (proj1 (forallb_forall (fun c =>
     (let b3 := wrap8 (Z.lor (Z.lor (Z.shiftl (if a then 1 else 0) 5) (Z.shiftl 1 4)) c) in
      (b3 mod 16 =? c) && ((b3 / 16) mod 4 =? (if a then 3 else 1)))) (map Z.of_nat (seq 0 16)))); auto.
    destruct a; vm_compute; reflexivity. }
  specialize (C cc). cbv zeta in C.
  assert (HI : In cc (map Z.of_nat (seq 0 16))).
  { apply in_map_iff. exists (Z.to_nat cc). split; [lia|]. apply in_seq. lia. }
  specialize (C HI). apply andb_true_iff in C.
  unfold TsHeader_Write. do 2 eexists. split; [reflexivity|].
  split; [destruct s; reflexivity|]. lia.
Qed.

Lemma ts_packet_demux : forall first cc data, 0 < zlen data -> 0 <= cc < 16 ->
  exists n, ts_packet first cc data = (fst (ts_packet first cc data), n) /\
    1 <= n <= zlen data /\
    zlen (fst (ts_packet first cc data)) = 188 /\
    ts_demux (fst (ts_packet first cc data)) =
      Some (mkTsView first cc (firstn (Z.to_nat n) data)).
Proof.
  intros first cc data Hd Hcc. unfold ts_packet. set (s0 := Z.min (zlen data) 184).
  destruct (ts_header_fields first (negb (s0 =? 184)) cc Hcc) as (b1 & b3 & EH & E1 & E3 & E4).
  rewrite EH. destruct (s0 <? 184) eqn:ES.
  - set (size := if s0 =? 183 then s0 - 1 else s0).
    assert (Hs : 1 <= size <= 182 /\ size <= zlen data) by (subst size s0; destruct (Z.min (zlen data) 184 =? 183) eqn:E; lia).
    exists size. cbn [fst]. split; [reflexivity|]. split; [lia|].
    set (pad := 184 - size - 1 - 1).
    assert (EF : zlen (firstn (Z.to_nat size) data) = size) by (unfold zlen in *; rewrite firstn_length; lia).
    assert (ER : zlen (repeat 255 (Z.to_nat pad)) = pad) by (unfold zlen; rewrite repeat_length; subst pad; lia).
    assert (L : zlen ([71; b1; 32; b3] ++ [wrap8 (pad + 1); 0] ++ repeat 255 (Z.to_nat pad) ++ firstn (Z.to_nat size) data) = 188).
    { rewrite !zlen_app, EF, ER. unfold zlen at 1 2. cbn [length]. subst pad. lia. }
    split; [exact L|].
    assert (EW : wrap8 (pad + 1) = pad + 1) by (unfold wrap8; apply Z.mod_small; subst pad; lia).
    rewrite EW in *. unfold ts_demux. cbn [app] in *. rewrite L. cbn [negb Z.eqb Pos.eqb].
    replace (negb (s0 =? 184)) with true in E4 by lia.
    rewrite E4. rewrite E1, E3.
    rewrite zlen_cons, zlen_app, ER, EF.
    replace (1 + (pad + size) <? pad + 1) with false by lia.
    replace (Z.to_nat (pad + 1)) with (S (Z.to_nat pad)) by (subst pad; lia). cbn [skipn].
    rewrite skipn_app, repeat_length, Nat.sub_diag.
    rewrite (skipn_all2 (repeat 255 _)) by (rewrite repeat_length; lia). reflexivity.
  - assert (s0 = 184) by (subst s0; lia). exists s0. cbn [fst]. split; [reflexivity|]. split; [lia|].
    assert (EF : zlen (firstn (Z.to_nat s0) data) = 184) by (unfold zlen in *; rewrite firstn_length; lia).
    assert (L : zlen ([71; b1; 32; b3] ++ firstn (Z.to_nat s0) data) = 188).
    { rewrite zlen_app, EF. reflexivity. }
    split; [exact L|]. unfold ts_demux. cbn [app] in *. rewrite L. cbn [negb Z.eqb Pos.eqb].
    replace (negb (s0 =? 184)) with false in E4 by lia. rewrite E4, E1, E3. reflexivity.
Qed.

(* counters: c, c+1, ... modulo 16 *)
Definition ts_run (first : bool) (c : Z) (vs : list ts_view) : Prop :=
  forall k v, nth_error vs k = Some v ->
    tv_start v = (if Nat.eqb k 0 then first else false) /\ tv_cc v = (c + Z.of_nat k) mod 16.

Lemma ReceivePacket_loop_spec : forall fuel first counter data,
  zlen data <= Z.of_nat fuel -> 0 <= counter <= 16 ->
  exists pkts vs, ReceivePacket_loop fuel first counter data = Some pkts /\
    ts_demux_all pkts = Some vs /\ length vs = length pkts /\
    Forall (fun p => zlen p = 188) pkts /\
    concat (map tv_payload vs) = data /\ ts_run first counter vs.
Proof.
  induction fuel as [|fuel IH]; intros first counter data Hf Hc.
  - assert (zlen data = 0) by (pose proof (zlen_nonneg _ data); lia).
    exists [], []. cbn [ReceivePacket_loop]. replace (zlen data <=? 0) with true by lia.
    repeat split; auto. destruct data; [reflexivity|unfold zlen in *; cbn in *; lia].
    all: destruct k; discriminate.
  - cbn [ReceivePacket_loop]. destruct (zlen data <=? 0) eqn:E0.
    { exists [], []. repeat split; auto. destruct data; [reflexivity|unfold zlen in *; cbn in *; lia].
      all: destruct k; discriminate. }
    set (c := if 15 <? counter then 0 else counter).
    assert (Hcc : 0 <= c < 16) by (subst c; destruct (15 <? counter) eqn:E; lia).
    assert (Hcm : c = counter mod 16).
    { subst c. destruct (15 <? counter) eqn:E; [assert (counter = 16) by lia; subst; reflexivity|].
      rewrite Z.mod_small; lia. }
    destruct (ts_packet_demux first c data ltac:(lia) Hcc) as (n & EP & Hn & HL & HD).
    rewrite EP. set (pkt := fst (ts_packet first c data)) in *. rewrite HL. cbn [Z.eqb Pos.eqb negb].
    replace (wrap8 (c + 1)) with (c + 1) by (unfold wrap8; symmetry; apply Z.mod_small; lia).
    destruct (IH false (c + 1) (skipn (Z.to_nat n) data)) as (pkts & vs & E1 & E2 & E3 & E4 & E5 & E6).
    { unfold zlen in *. rewrite skipn_length. lia. }
    { lia. }
    rewrite E1. exists (pkt :: pkts), (mkTsView first c (firstn (Z.to_nat n) data) :: vs).
    split; [reflexivity|]. cbn [ts_demux_all]. rewrite HD, E2.
    split; [reflexivity|]. split; [cbn [length]; congruence|]. split; [constructor; auto|].
    split; [cbn [map concat tv_payload]; rewrite E5; apply firstn_skipn|].
    intros k v Hk. destruct k as [|k]; cbn [nth_error] in Hk.
    + injection Hk as <-. cbn. split; [reflexivity|]. rewrite Z.add_0_r. exact Hcm.
    + destruct (E6 k v Hk) as (A & B). split.
      * rewrite A. destruct k; reflexivity.
      * rewrite B, Hcm. replace (counter mod 16 + 1 + Z.of_nat k) with (counter mod 16 + (1 + Z.of_nat k)) by lia.
        rewrite Zplus_mod_idemp_l. f_equal. lia.
Qed.

Lemma ReceivePacket_spec : forall data, exists pkts vs,
  ReceivePacket data = Some pkts /\ ts_demux_all pkts = Some vs /\
  Forall (fun p => zlen p = 188) pkts /\ concat (map tv_payload vs) = data /\
  (forall k v, nth_error vs k = Some v -> tv_start v = Nat.eqb k 0 /\ tv_cc v = Z.of_nat k mod 16).
Proof.
  intros data. destruct (ReceivePacket_loop_spec (length data) true 0 data) as (pkts & vs & E1 & E2 & E3 & E4 & E5 & E6).
  { unfold zlen; lia. }
  { lia. }
  exists pkts, vs. repeat split; auto.
  - destruct (E6 k v H) as (A & _). rewrite A. destruct k; reflexivity.
  - destruct (E6 k v H) as (_ & B). exact B.
Qed.

Lemma continuous_run : forall vs c, (forall k v, nth_error vs k = Some v -> tv_cc v = (c + Z.of_nat k) mod 16) ->
  continuous (map tv_cc vs).
Proof.
  induction vs as [|a vs IH]; intros c H; cbn [map continuous]; auto.
  destruct vs as [|b vs]; cbn [map]; auto. split.
  - pose proof (H 0%nat a eq_refl) as A. pose proof (H 1%nat b eq_refl) as B.
    rewrite A, B. rewrite Zplus_mod_idemp_l. f_equal. lia.
  - apply (IH (c + 1)). intros k v Hk. rewrite (H (S k) v Hk). f_equal. lia.
Qed.

(* ---------- superframe index ---------- *)

Lemma le_val_bound : forall l, bytes l -> 0 <= le_val l < 2 ^ (8 * zlen l).
Proof.
  induction l as [|b l IH]; intros H; [unfold zlen; cbn; lia|].
  inversion H as [|? ? H1 H2]; subst. specialize (IH H2). cbn [le_val].
  rewrite zlen_cons. replace (8 * (1 + zlen l)) with (8 + 8 * zlen l) by lia.
  rewrite Z.pow_add_r by (pose proof (zlen_nonneg _ l); lia). change (2 ^ 8) with 256. unfold is_byte in H1.
  pose proof (pow2_pos (8 * zlen l) ltac:(pose proof (zlen_nonneg _ l); lia)). nia.
Qed.

Lemma le_field_spec : forall n j l, (n <= length l)%nat -> bytes l -> 0 <= j -> j + Z.of_nat n <= 4 ->
  le_field n j l = (le_val (firstn n l) * 2 ^ (8 * j), skipn n l).
Proof.
  induction n as [|n IH]; intros j l Hn Hb Hj Hjn; cbn [le_field firstn skipn le_val]; [f_equal; lia|].
  destruct l as [|b l]; cbn [length] in Hn; [lia|].
  inversion Hb as [|? ? H1 H2]; subst.
  rewrite IH by (auto; lia). cbn [firstn skipn le_val].
  f_equal. unfold is_byte in H1.
  assert (HB : bytes (firstn n l)) by (unfold bytes in *; rewrite Forall_forall in *; intros x Hx; apply H2; eapply firstn_In || (rewrite <- (firstn_skipn n l); apply in_or_app; left; exact Hx)).
  pose proof (le_val_bound _ HB) as LB.
  assert (EP : 2 ^ (8 * (j + 1)) = 256 * 2 ^ (8 * j)).
  { replace (8 * (j + 1)) with (8 + 8 * j) by lia. rewrite Z.pow_add_r by lia. reflexivity. }
  rewrite shiftl_mul by lia. replace (j * 8) with (8 * j) by lia.
  pose proof (pow2_pos (8 * j) ltac:(lia)).
  assert (PB : 2 ^ (8 * j) * 256 <= 2 ^ 32).
  { change 256 with (2 ^ 8). rewrite <- Z.pow_add_r by lia. apply Z.pow_le_mono_r; lia. }
  change (2 ^ 32) with 4294967296 in PB.
  unfold wrap32. rewrite Z.mod_small by nia.
  rewrite EP, Z.lor_comm.
  replace (le_val (firstn n l) * (256 * 2 ^ (8 * j))) with (le_val (firstn n l) * 2 ^ (8 * j + 8)).
  2: { rewrite Z.pow_add_r by lia. change (2 ^ 8) with 256. lia. }
  rewrite lor_mul_low; [|lia|rewrite Z.pow_add_r by lia; change (2 ^ 8) with 256; nia].
  rewrite Z.pow_add_r by lia. change (2 ^ 8) with 256. lia.
Qed.

(* the length fields of a superframe index: n numbers of w bytes *)
Lemma bytes_skipn : forall n l, bytes l -> bytes (skipn n l).
Proof.
  intros n l H. rewrite <- (firstn_skipn n l) in H. apply bytes_app in H. tauto.
Qed.
Lemma bytes_firstn : forall n l, bytes l -> bytes (firstn n l).
Proof.
  intros n l H. rewrite <- (firstn_skipn n l) in H. apply bytes_app in H. tauto.
Qed.

Definition rpair (r : range) : Z * Z := (rg_offset r, rg_length r).

Lemma superframe_loop_spec : forall n w l length offset,
  bytes l -> (w <= 4)%nat -> (n * w <= List.length l)%nat -> 0 <= offset <= length -> length < 2 ^ 63 ->
  match superframe_loop n w l length offset with
  | Some rs => map rg_length rs = le_fields n w l /\ consecutive offset (map rpair rs) /\
               offset + fold_right Z.add 0 (map rg_length rs) <= length /\ List.length rs = n
  | None => length < offset + fold_right Z.add 0 (le_fields n w l)
  end.
Proof.
  induction n as [|n IH]; intros w l length offset Hb Hw Hl Ho Hlen; cbn [superframe_loop].
  - cbn. repeat split; lia.
  - assert (Hwl : (w <= List.length l)%nat) by lia.
    rewrite le_field_spec by (auto; lia). rewrite Z.pow_0_r || change (2 ^ (8 * 0)) with 1. rewrite Z.mul_1_r.
    cbn [le_fields fold_right].
    pose proof (le_val_bound _ (bytes_firstn w l Hb)) as LB.
    set (child := le_val (firstn w l)) in *.
    assert (NN : forall m k, bytes k -> 0 <= fold_right Z.add 0 (le_fields m w k)).
    { induction m as [|m IHm]; intros k Hk; cbn [le_fields fold_right]; [lia|].
      pose proof (le_val_bound _ (bytes_firstn w k Hk)). specialize (IHm _ (bytes_skipn w k Hk)). lia. }
    change (2 ^ 63) with 9223372036854775808 in *.
    unfold wrap64. rewrite Z.mod_small by lia.
    destruct (length - offset <? child) eqn:E.
    + specialize (NN n _ (bytes_skipn w l Hb)). lia.
    + specialize (IH w (skipn w l) length (offset + child) (bytes_skipn _ _ Hb) Hw).
      assert (HH : (n * w <= List.length (skipn w l))%nat) by (rewrite skipn_length; lia).
      specialize (IH HH ltac:(lia) Hlen).
      destruct (superframe_loop n w (skipn w l) length (offset + child)) as [rs|].
      * destruct IH as (I1 & I2 & I3 & I4). cbn [map rg_length consecutive fold_right List.length].
        unfold rpair at 1. cbn [rg_offset rg_length].
        repeat split; try lia; try congruence; auto.
      * lia.
Qed.

Lemma land_e0_c0 : forall b, is_byte b -> (Z.land b 0xe0 =? 0xc0) = (b / 32 =? 6).
Proof.
  intros b Hb.
  assert (C : forallb (fun n => let b := Z.of_nat n in Bool.eqb (Z.land b 0xe0 =? 0xc0) (b / 32 =? 6)) (seq 0 256) = true)
    by (vm_compute; reflexivity).
  rewrite forallb_forall in C. specialize (C (Z.to_nat b)).
  unfold is_byte in Hb. rewrite Z2Nat.id in C by lia.
  apply eqb_prop. apply C. apply in_seq. lia.
Qed.

Lemma last_is_byte : forall l, bytes l -> is_byte (last l 0).
Proof.
  intros l H. destruct l as [|x l]; [unfold is_byte; cbn; lia|].
  assert (In (last (x :: l) 0) (x :: l)).
  { clear H. revert x. induction l as [|y l IH]; intros x; [left; reflexivity|]. right. apply IH. }
  unfold bytes in H. rewrite Forall_forall in H. auto.
Qed.

(* what ParseVP9SuperFrameIndex decides, in terms of the frame's bytes *)
Lemma superframe_spec : forall f, bytes f -> 1 <= zlen f < 2 ^ 63 ->
  let total := zlen f - sf_index_size f in
  let sizes := le_fields (Z.to_nat (sf_count f)) (Z.to_nat (sf_bytes f)) (skipn (Z.to_nat (total + 1)) f) in
  let '(ok, err, rs) := ParseVP9SuperFrameIndex f in
  (~ sf_marker f -> ok = false /\ err = false /\ rs = []) /\
  (sf_marker f ->
     (ok = true /\ err = false /\
        sf_index_size f <= total /\ nth (Z.to_nat total) f 0 = last f 0 /\
        map rg_length rs = sizes /\ consecutive 0 (map rpair rs) /\
        fold_right Z.add 0 sizes <= total)
     \/
     (ok = false /\ err = true /\
        ~ (sf_index_size f <= total /\ nth (Z.to_nat total) f 0 = last f 0 /\ fold_right Z.add 0 sizes <= total))).
Proof.
  intros f Hb Hl. cbv zeta. unfold ParseVP9SuperFrameIndex.
  replace (zlen f =? 0) with false by lia.
  pose proof (last_is_byte f Hb) as HM. rewrite land_e0_c0 by exact HM.
  unfold sf_marker, sf_index_size, sf_count, sf_bytes. set (m := last f 0) in *. unfold is_byte in HM.
  destruct (m / 32 =? 6) eqn:EM.
  2: { split; [intros _; auto|lia]. }
  assert (E1 : Z.land m 7 = m mod 8) by apply land_7.
  assert (E2 : Z.land (Z.shiftr m 3) 3 = (m / 8) mod 4).
  { change 3 with (Z.ones 2) at 2. rewrite Z.land_ones, shiftr_div by lia. reflexivity. }
  rewrite E1, E2.
  set (cnt := m mod 8 + 1). set (w := (m / 8) mod 4 + 1).
  assert (Hcnt : 1 <= cnt <= 8) by (subst cnt; zdm).
  assert (Hw : 1 <= w <= 4) by (subst w; zdm).
  destruct (zlen f <? 2 + w * cnt) eqn:EL.
  { split; [lia|]. intros _. right. repeat split; auto. intros (A & _). nia. }
  set (total := zlen f - (2 + w * cnt)) in *.
  destruct ((2 + w * cnt <=? total) && (nth (Z.to_nat total) f 0 =? m)) eqn:EG.
  2: { split; [lia|]. intros _. right. repeat split; auto. intros (A & B & _). lia. }
  change (2 ^ 63) with 9223372036854775808 in Hl.
  pose proof (superframe_loop_spec (Z.to_nat cnt) (Z.to_nat w) (skipn (Z.to_nat (total + 1)) f) total 0
     (bytes_skipn _ _ Hb) ltac:(lia)) as SP.
  assert (HLEN : (Z.to_nat cnt * Z.to_nat w <= List.length (skipn (Z.to_nat (total + 1)) f))%nat).
  { rewrite skipn_length. unfold zlen in *. nia. }
  specialize (SP HLEN ltac:(nia) ltac:(change (2 ^ 63) with 9223372036854775808; nia)).
  destruct (superframe_loop _ _ _ _ _) as [rs|].
  - destruct SP as (S1 & S2 & S3 & S4).
    replace (zlen rs =? cnt) with true by (unfold zlen; lia).
    split; [lia|]. intros _. left. rewrite <- S1. repeat split; auto; lia.
  - split; [lia|]. intros _. right. repeat split; auto. intros (_ & _ & C). lia.
Qed.

Lemma packetise : forall data, exists pkts vs,
  ReceivePacket data = Some pkts /\ ts_demux_all pkts = Some vs /\
  Forall (fun p => zlen p = 188) pkts /\ concat (map tv_payload vs) = data /\
  continuous (map tv_cc vs) /\
  (forall k v, nth_error vs k = Some v -> tv_start v = Nat.eqb k 0 /\ tv_cc v = Z.of_nat k mod 16).
Proof.
  intros data. destruct (ReceivePacket_spec data) as (pkts & vs & A & B & C & D & E).
  exists pkts, vs. repeat (split; [assumption|]). split; [|exact E].
  apply (continuous_run vs 0). intros k v Hk. destruct (E k v Hk) as (_ & F). exact F.
Qed.

Lemma frame_ranges_passthrough : forall f, bytes f -> 1 <= zlen f < 2 ^ 63 -> ~ sf_marker f ->
  frame_ranges true f = Some [mkRange 0 (zlen f)].
Proof.
  intros f Hb Hl Hm. unfold frame_ranges. pose proof (superframe_spec f Hb Hl) as S.
  destruct (ParseVP9SuperFrameIndex f) as [[ok err] rs]. destruct S as (S & _).
  destruct (S Hm) as (-> & -> & _). reflexivity.
Qed.
