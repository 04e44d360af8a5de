(* Proofs about the callback parser: a whole well-formed document is reported. *)
From Coq Require Import ZifyBool ZifyNat.
From Verif Require Import Base EbmlSpec LacingSpec WpSpec WpDocSpec MWp MWpBlock MWpTree PParUtil PWp3 PWp8
  PWpRead PWpLeaf PWpBlk PWpDoc PWpDoc2.

Local Notation W l p t := (mk_world l p [] t).

Lemma doc_sel : forall id cn,
  cn = (if id =? idSegment then NSegment else if id =? idEbml then NVal VEbml else if id =? idVoid then NVoid else NUnknown) ->
  sel O 0 id cn.
Proof.
  intros id cn ->. unfold sel, type_in.
  match goal with |- context [assoc ?p schema] =>
      let x := eval vm_compute in (assoc p schema) in change (assoc p schema) with x end.
  cbn [assoc]. unfold idSegment, idEbml, idVoid.
  destruct (Z.eqb_spec id 0x18538067) as [->|N1].
  { right; right. eexists. split; [reflexivity|]. cbn [node_is]. intros d' Hd. vm_compute in Hd. injection Hd as <-.
    exists NSegment. split; [left; split; reflexivity | reflexivity]. }
  destruct (Z.eqb_spec id 0x1A45DFA3) as [->|N2].
  { right; right. eexists. split; [reflexivity|]. cbn [node_is]. intros d' Hd. vm_compute in Hd. injection Hd as <-.
    exists (NVal VEbml). split; [left; split; reflexivity | reflexivity]. }
  replace (440786851 =? id) with false by lia. replace (408125543 =? id) with false by lia.
  destruct (Z.eqb_spec id 0xEC) as [->|N3].
  - right; left. repeat split.
  - left. repeat split. exact N3.
Qed.

Section skip.
Variable skip : meta -> bool.
Local Notation cb := (skipping skip).
Local Notation lg := (lg skip).
Local Notation elements := (elements_skip skip).
Local Notation Eclaim := (Eclaim skip).

Definition at_id (pos : Z) (d : dst) : Prop :=
  d_state d = DId /\ d_idp d = id_new /\ d_szp d = vi_new /\ me_hsize (d_cm d) = 0 /\ me_pos (d_cm d) = pos /\ d_skip d = false.

Lemma dl_header : forall d bs pos x more, at_id pos d -> hdr bs pos x more ->
  exists i z, forall f t, dloop cb (S (S f)) false d (W bs pos t)
    = dloop cb f false (mk_dst DValidate i z x false (d_child d) (d_seek d)) (W more (pos + me_hsize x) t).
Proof.
  intros d bs pos x more (D1 & D2 & D3 & D4 & D5 & D6) Hh.
  destruct d as [ds di dz dc dk dch dse]. cbn [d_state d_idp d_szp d_cm d_skip d_child d_seek] in *. subst ds di dz dk.
  destruct Hh as [id ib w n0 more pos Hi Hw Hn0]. exists (mk_idst 0 id), (mk_vist 0 (w - 1) n0). intros f t.
  change (dloop cb (S (S f)) false (mk_dst DId id_new vi_new dc false dch dse) (W (ib ++ vint w n0 ++ more) pos t))
    with (let '(s, k, i, w1) := IdParser_Feed id_new (W (ib ++ vint w n0 ++ more) pos t) in
          let d1 := mk_dst DId i vi_new (cm_add_hsize k dc) false dch dse in
          if negb (s =? kOkCompleted) then
            if (s =? kEndOfFile) && (w_pos w1 =? me_pos dc)
            then dloop cb (S f) false (d_set_state DEnd d1) w1
            else Some (s, d1, w1)
          else dloop cb (S f) false (d_set_state DSize d1) w1).
  rewrite (Id_full id ib) by exact Hi. cbv zeta. change (kOkCompleted =? kOkCompleted) with true. cbn [negb].
  unfold d_set_state. cbn [d_idp d_szp d_cm d_skip d_child d_seek].
  match goal with |- dloop cb (S f) false (mk_dst DSize ?i ?z ?cm ?k ?ch ?se) ?w0 = _ =>
    change (dloop cb (S f) false (mk_dst DSize i z cm k ch se) w0)
      with (let '(s, k1, z1, w1) := SizeParser_Feed z w0 in
            let cm1 := cm_add_hsize k1 cm in
            if negb (s =? kOkCompleted) then Some (s, mk_dst DSize i z1 cm1 k ch se, w1)
            else dloop cb f false (mk_dst DValidate i z1 (mk_meta (ip_id i) (me_hsize cm1) (size_value z1) (me_pos cm1)) k ch se) w1) end.
  rewrite Size_full by assumption. cbv zeta. change (kOkCompleted =? kOkCompleted) with true. cbn [negb].
  cbn [ip_id cm_add_hsize me_hsize me_pos]. rewrite D4, D5. rewrite Z.add_0_l, Z.add_assoc. reflexivity.
Qed.

(* one element of the document *)
Lemma dl_child : forall d x bs more l pos evs t val payload,
  at_id pos d -> (d_seek d = false \/ me_id x = Segment \/ me_id x = Ebml) -> hdr bs pos x (payload ++ more) ->
  (me_size x = kUnknownElementSize -> zlen payload < 2 ^ 62 -> type_in 0 (me_id x) = Some TMaster /\ skip x = false) ->
  Eclaim O 0 true x payload evs val ->
  0 <= pos -> bytes bs -> pos + zlen bs < 2 ^ 62 ->
  me_size x = zlen payload \/ (me_size x = kUnknownElementSize /\ payload <> [] /\ (me_id x = Segment \/ me_id x = Cluster)
                              /\ more = [] /\ l = []) ->
  exists d1 f1, at_id (pos + me_hsize x + zlen payload) d1 /\ d_seek d1 = false /\
    forall f r, dloop cb f false d1 (W (more ++ l) (pos + me_hsize x + zlen payload) (lg (EElement x :: evs) t)) = Some r ->
      dloop cb (S (S (S (S (S (S (f1 + f))))))) false d (W (bs ++ l) pos t) = Some r.
Proof.
  intros d x bs more l pos evs t val payload (D1 & D2 & D3 & D4 & D5 & D6) Dsk Hh Huns EC Hp Hb Hl Sz.
  assert (U : 2 ^ 62 < kUnknownElementSize) by reflexivity.
  pose proof (hdr_len _ _ _ _ Hh) as (HL & Hz & Px). rewrite (zlen_app _ payload more) in HL.
  pose proof (zlen_nonneg _ payload) as P1. pose proof (zlen_nonneg _ more) as P2.
  pose proof (hdr_bytes _ _ _ _ Hh Hb) as Hbp. apply Forall_app in Hbp. destruct Hbp as [Hbp _].
  set (cn := if me_id x =? idSegment then NSegment else if me_id x =? idEbml then NVal VEbml else if me_id x =? idVoid then NVoid else NUnknown).
  assert (Hsel : sel O 0 (me_id x) cn) by (apply doc_sel; reflexivity).
  assert (Hmd : exists md, md_ok md (me_id x) (negb (me_size x =? kUnknownElementSize)) (me_size x) (zlen payload) (more ++ l) (pos + me_hsize x + zlen payload)
     /\ md_k md = 0 /\ md_rest md (more ++ l) = more ++ l /\ md_cached md = None).
  { destruct Sz as [Q | (Q & _ & Q1 & -> & ->)].
    - exists MdSz. replace (me_size x =? kUnknownElementSize) with false by (clear - Q U HL Hl Hp Hz P2; lia). repeat split.
    - exists MdEof. rewrite Q, Z.eqb_refl. cbn [negb md_ok]. split; [split; [reflexivity|]; split; [reflexivity | clear - U HL Hl Hp Hz P2; lia]|]. repeat split. }
  destruct Hmd as (md & Ok & M1 & M2 & M3).
  assert (Szx : me_size x <= kUnknownElementSize) by (destruct Sz as [Q | (Q & _)]; clear - Q U HL Hl Hp Hz P2; lia).
  destruct (EC cn (me_size x) (more ++ l) (pos + me_hsize x) (lg [EElement x] t) md Hsel ltac:(clear - Px; lia) ltac:(clear - Px Hp; lia)
    ltac:(clear - Hz; lia) Hbp ltac:(clear - Hl HL P2; lia) ltac:(clear - Sz; tauto) Ok Szx)
    as (p0 & p1 & f1 & Init & Feed & Cach & _ & _ & _).
  rewrite M1, !Z.add_0_r, M2 in Feed. rewrite M3 in Cach.
  eexists (mk_dst DId id_new vi_new (mk_meta _ 0 _ (pos + me_hsize x + zlen payload)) false CNone false), f1.
  split; [repeat split|]. split; [reflexivity|]. intros f r Hr.
  destruct (dl_header d (bs ++ l) pos x ((payload ++ more) ++ l) (conj D1 (conj D2 (conj D3 (conj D4 (conj D5 D6))))) (hdr_app _ _ _ _ l Hh)) as (i & z & DH).
  rewrite DH. clear DH.
  assert (V : forall g w, dloop cb (S g) false (mk_dst DValidate i z x false (d_child d) (d_seek d)) w
            = dloop cb g false (mk_dst DAction i z x false (CSel cn) false) w).
  { intros g w. cbn [dloop d_state d_cm d_seek]. cbv zeta. unfold cn.
    destruct (me_id x =? idSegment) eqn:E1; [reflexivity|]. destruct (me_id x =? idEbml) eqn:E2; [reflexivity|].
    destruct Dsk as [-> | [Q | Q]]; [|rewrite Q in E1; discriminate | rewrite Q in E2; discriminate]. cbv iota.
    destruct (me_id x =? idVoid) eqn:E3; [reflexivity|].
    replace (me_size x =? kUnknownElementSize) with false; [reflexivity|]. symmetry.
    destruct Sz as [Q | (Q & _ & Q1 & _)]; [clear - Q U HL Hl Hp Hz P2; lia|].
    destruct (Huns Q ltac:(clear - HL Hl Hp Hz P2; lia)) as [Ty _].
    destruct Q1 as [Q1 | Q1]; [rewrite Q1 in E1; discriminate E1 | rewrite Q1 in Ty; discriminate Ty]. }
  rewrite V. clear V. 
  match goal with |- dloop cb (S ?g) false ?dd ?w0 = _ =>
    change (dloop cb (S g) false dd w0) with
     (let '(s, sk, w1) := notify cb false (EElement x) w0 in
          let d1 := mk_dst DAction i z x sk (CSel cn) false in
          if negb (s =? kOkCompleted) then Some (s, d1, w1)
          else if sk
          then dloop cb g true (d_set_state DInit
                    (if me_size x =? kUnknownElementSize then d1 else d_set_child (CSel NSkip) d1)) w1
          else dloop cb g false (d_set_state DInit d1) w1) end.
  rewrite notify_all. cbv zeta. change (kOkCompleted =? kOkCompleted) with true. cbn [negb skips].
  set (cn1 := if skip x then NSkip else cn) in *.
  match goal with |- (if skip x then dloop cb ?g true _ ?w1 else _) = _ =>
    match goal with |- ?lhs = _ => assert (E1 : lhs = dloop cb g (skip x) (mk_dst DInit i z x (skip x) (CSel cn1) false) w1) end end.
  { unfold cn1. destruct (skip x) eqn:Ek; [|reflexivity]. replace (me_size x =? kUnknownElementSize) with false; [reflexivity|].
    symmetry. destruct (Z.eqb_spec (me_size x) kUnknownElementSize) as [Q|Q]; [|reflexivity].
    destruct (Huns Q ltac:(clear - HL Hl Hp Hz P2; lia)). congruence. }
  rewrite E1; clear E1.
  match goal with |- dloop cb (S ?g) (skip x) ?dd ?w0 = _ =>
    change (dloop cb (S g) (skip x) dd w0) with
      (let '(s, p) := parser_Init cn1 x (me_size x) in
              if negb (s =? kOkCompleted) then Some (s, dd, w0)
              else dloop cb g (skip x) (d_set_state DBody (d_set_child (CAct p) dd)) w0) end.
  rewrite Init. change (kOkCompleted =? kOkCompleted) with true. cbn [negb].
  match goal with |- dloop cb (S ?g) (skip x) ?dd ?w0 = _ =>
    change (dloop cb (S g) (skip x) dd w0) with
      (match feed cb g (skip x) p0 w0 with
              | None => None
              | Some (s, _, p1, w1) =>
                  if negb (s =? kOkCompleted) then Some (s, d_set_child (CAct p1) dd, w1)
                  else
                    let cm := match cached p1 with
                              | Some x => x
                              | None => mk_meta (me_id x) 0 (me_size x) (me_pos x)
                              end in
                    let st := match cached p1 with Some _ => DValidate | None => DId end in
                    dloop cb g false
                      (mk_dst st id_new vi_new (mk_meta (me_id cm) (me_hsize cm) (me_size cm) (w_pos w1))
                              false CNone false) w1
              end) end.
  rewrite <- app_assoc. rewrite (feed_mono _ f1 (f1 + f) _ _ _ _ ltac:(clear; lia) Feed).
  change (kOkCompleted =? kOkCompleted) with true. cbn [negb]. rewrite Cach. cbv zeta. cbn [me_id me_hsize me_size w_pos].
  refine (dloop_mono _ f (f1 + f) _ _ _ _ ltac:(clear; lia) _). rewrite <- lg_app. exact Hr.
Qed.

Lemma first_id : forall d x e v items,
  (d_seek d = false \/ exists i r, mk_item x e v :: items = i :: r /\ (me_id (i_meta i) = Segment \/ me_id (i_meta i) = Ebml)) ->
  d_seek d = false \/ me_id x = Segment \/ me_id x = Ebml.
Proof.
  intros d x e v items [H | (i & r & E & H)]; [left; exact H|]. injection E as <- _. right. exact H.
Qed.
Lemma doc_run : forall d0 parent closed pos bs items, elements d0 parent closed pos bs items ->
  d0 = O -> parent = 0 -> closed = true ->
  forall d t, at_id pos d -> (d_seek d = false \/ exists i r, items = i :: r /\ (me_id (i_meta i) = Segment \/ me_id (i_meta i) = Ebml)) -> 0 <= pos -> bytes bs -> pos + zlen bs < 2 ^ 62 ->
  exists f d', dloop cb f false d (W bs pos t) = Some (kOkCompleted, d', W [] (pos + zlen bs) (lg (item_events items) t)).
Proof.
  intros d0 parent closed pos bs items H.
  induction H as [d0 parent closed pos
    | d0 parent closed pos id ib w payload rest events v items Hi Hf Hsk El Els IH
    | d0 parent closed pos id ib w payload rest events v items Hi Hw NE Ends Hsk El Els IH
    | d0 parent closed pos id ib w payload rest items Hi Hf Hsk Op Els IH]; intros -> -> -> d t Hd Hs Hp Hb Hl.
  - destruct Hd as (D1 & D2 & D3 & D4 & D5 & D6). destruct d as [ds di dz dc dk dch dse].
    cbn [d_state d_idp d_szp d_cm d_skip d_child d_seek] in *. subst ds di dz dk.
    exists 2%nat. eexists. rewrite zlen_nil, Z.add_0_r.
    cbn [dloop d_state d_idp].
    change (IdParser_Feed id_new (W [] pos t)) with (kEndOfFile, 0, id_new, W [] pos t).
    cbn [d_szp d_cm d_skip d_child w_pos]. change (kEndOfFile =? kOkCompleted) with false. change (kEndOfFile =? kEndOfFile) with true.
    rewrite D5, Z.eqb_refl. cbn [negb andb d_set_state d_state]. reflexivity.
  - destruct Hf as [Hw Hf]. pose proof (zlen_nonneg _ payload).
    assert (Hh : hdr (ib ++ vint w (zlen payload) ++ payload ++ rest) pos (mk_meta id (zlen ib + w) (zlen payload) pos) (payload ++ rest)).
    { rewrite <- (size_value_known w (zlen payload)) at 2 by (split; assumption). apply hdr_i; [assumption | assumption | lia]. }
    pose proof (proj2 (proj1 document_claims _ _ _ _ _ _ _ El) Hsk) as EC.
    pose proof (hdr_len _ _ _ _ Hh) as (HL & _ & _). rewrite (zlen_app _ payload rest) in HL. cbn [me_hsize] in HL.
    destruct (dl_child d _ _ rest [] pos events t v payload Hd (first_id _ _ _ _ _ Hs) Hh ltac:(cbn [me_size]; change kUnknownElementSize with (2 ^ 64 - 1); intros; exfalso; assert (2 ^ 62 < 2 ^ 64 - 1) by reflexivity; lia) EC Hp Hb Hl ltac:(left; reflexivity)) as (d1 & f1 & A1 & As & A2).
    cbn [me_hsize] in *. rewrite !Z.add_assoc in *. rewrite !app_nil_r in A2.
    pose proof (hdr_bytes _ _ _ _ Hh Hb) as Hbp. apply Forall_app in Hbp. destruct Hbp as [_ Hbr].
    destruct (IH eq_refl eq_refl eq_refl d1 (lg (EElement (mk_meta id (zlen ib + w) (zlen payload) pos) :: events) t) A1 (or_introl As)
      ltac:(pose proof (id_bytes_len _ _ Hi); lia) Hbr ltac:(lia)) as (f & d' & R).
    specialize (A2 f _ R). eexists _, d'. rewrite A2. replace (pos + zlen ib + w + zlen payload + zlen rest) with (pos + zlen (ib ++ vint w (zlen payload) ++ payload ++ rest)) by lia.
    do 3 f_equal. rewrite <- lg_app. reflexivity.
  - pose proof (pow2_pos (7 * w) ltac:(lia)) as Pw.
    assert (Hh : hdr (ib ++ vint w (2 ^ (7 * w) - 1) ++ payload ++ rest) pos (mk_meta id (zlen ib + w) kUnknownElementSize pos) (payload ++ rest)).
    { rewrite <- (size_value_unknown w) by assumption. apply hdr_i; [assumption | assumption | lia]. }
    pose proof (proj2 (proj1 document_claims _ _ _ _ _ _ _ El) Hsk) as EC.
    pose proof (hdr_len _ _ _ _ Hh) as (HL & Hz & _). rewrite (zlen_app _ payload rest) in HL. cbn [me_hsize] in HL, Hz.
    pose proof (zlen_nonneg _ payload). pose proof (zlen_nonneg _ rest).
    pose proof (el_unsized _ _ _ _ _ _ _ El eq_refl ltac:(lia)) as Ty. cbn [me_id] in Ty.
    destruct Ends as [[-> Ei] | [-> _]]; [|discriminate Ty].
    assert (rest = []) by (apply (proj1 (proj2 document_claims _ _ _ _ _ _ Els)); exact Ei). subst rest items.
    destruct (dl_child d _ _ [] [] pos events t v payload Hd (first_id _ _ _ _ _ Hs) Hh (fun _ _ => conj Ty Hsk) EC Hp Hb Hl ltac:(right; repeat split; auto)) as (d1 & f1 & A1 & As & A2).
    cbn [me_hsize] in *. rewrite !Z.add_assoc in *. rewrite !app_nil_r in *. rewrite zlen_nil in *.
    destruct (IH eq_refl eq_refl eq_refl d1 (lg (EElement (mk_meta Segment (zlen ib + w) kUnknownElementSize pos) :: events) t) A1 (or_introl As)
      ltac:(lia) ltac:(constructor) ltac:(lia)) as (f & d' & R).
    specialize (A2 f _ R). eexists _, d'. rewrite A2. replace (pos + zlen ib + w + zlen payload + 0) with (pos + zlen (ib ++ vint w (2 ^ (7 * w) - 1) ++ payload)) by lia.
    do 3 f_equal. cbn [item_events map concat]. rewrite <- lg_app. reflexivity.
  - destruct Hf as [Hw Hf]. pose proof (zlen_nonneg _ payload).
    assert (Hh : hdr (ib ++ vint w (zlen payload) ++ payload ++ rest) pos (mk_meta id (zlen ib + w) (zlen payload) pos) (payload ++ rest)).
    { rewrite <- (size_value_known w (zlen payload)) at 2 by (split; assumption). apply hdr_i; [assumption | assumption | lia]. }
    pose proof (E_skipped O 0 true (mk_meta id (zlen ib + w) (zlen payload) pos) payload eq_refl Hsk) as EC.
    pose proof (hdr_len _ _ _ _ Hh) as (HL & _ & _). rewrite (zlen_app _ payload rest) in HL. cbn [me_hsize] in HL.
    destruct (dl_child d _ _ rest [] pos [] t None payload Hd (first_id _ _ _ _ _ Hs) Hh ltac:(cbn [me_size]; change kUnknownElementSize with (2 ^ 64 - 1); intros; exfalso; assert (2 ^ 62 < 2 ^ 64 - 1) by reflexivity; lia) EC Hp Hb Hl ltac:(left; reflexivity)) as (d1 & f1 & A1 & As & A2).
    cbn [me_hsize] in *. rewrite !Z.add_assoc in *. rewrite !app_nil_r in A2.
    pose proof (hdr_bytes _ _ _ _ Hh Hb) as Hbp. apply Forall_app in Hbp. destruct Hbp as [_ Hbr].
    destruct (IH eq_refl eq_refl eq_refl d1 (lg (EElement (mk_meta id (zlen ib + w) (zlen payload) pos) :: []) t) A1 (or_introl As)
      ltac:(pose proof (id_bytes_len _ _ Hi); lia) Hbr ltac:(lia)) as (f & d' & R).
    specialize (A2 f _ R). eexists _, d'. rewrite A2. replace (pos + zlen ib + w + zlen payload + zlen rest) with (pos + zlen (ib ++ vint w (zlen payload) ++ payload ++ rest)) by lia.
    do 3 f_equal. rewrite <- lg_app. reflexivity.
Qed.

Lemma document_read : forall bs events, document_skip skip bs events -> bytes bs -> zlen bs < 2 ^ 62 ->
  exists f p w, WebmParser_Feed cb f wp_new (W bs 0 []) = Some (kOkCompleted, p, w) /\ w_trace w = lg events [].
Proof.
  intros bs events (items & H & ->) Hb Hl.
  destruct (doc_run _ _ _ _ _ _ H eq_refl eq_refl eq_refl (mk_dst DId id_new vi_new meta0 false CNone false) [] ltac:(repeat split) (or_introl eq_refl) ltac:(lia) Hb Hl)
    as (f & d' & R).
  exists (S f), (mk_wparser kOkCompleted d'), (W [] (0 + zlen bs) (lg (item_events items) [])).
  unfold WebmParser_Feed. change (is_parsing_error (wp_status wp_new)) with false. cbv iota.
  change (dloop cb (S f) (d_skip (wp_doc wp_new)) (wp_doc wp_new) (W bs 0 []))
    with (dloop cb f false (mk_dst DId id_new vi_new meta0 false CNone false) (W bs 0 [])).
  rewrite R. split; reflexivity.
Qed.
End skip.
Arguments dl_header {skip}.
Arguments dl_child {skip}.
Arguments doc_run {skip}.
Arguments document_read {skip}.
