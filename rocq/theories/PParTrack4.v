(* The track parsers on any data. *)
From Coq Require Import ZifyBool ZifyNat Floats.SpecFloat.
From Verif Require Import Base EbmlSpec MFloat Ids MMuxMeta MParUtil MParMeta MParTrack ReaderSpec ReadTrackSpec PParUtil PParMeta PParMeta2.

(* ---------- they return ---------- *)

Section Returns.
Context (r : reader) (Hwf : wf_reader r) (Hav : r_avail r <= 2 ^ 62) (Hneg : forall pos len st, r_read r pos len = inl st -> st < 0).

Lemma payload : forall S zr (h : Z -> Z -> Z -> S -> outcome (step S)) pos size s,
  (forall id p n s, 0 <= p -> p + n <= LLONG_MAX -> exists x, h id p n s = Val x) -> 0 <= pos -> pos + size <= LLONG_MAX ->
  exists x, walk_payload r zr h pos size s = Val x.
Proof. intros. apply payload_returns; auto. Qed.
Lemma unsigned_returns : forall S pos size bad err (set : Z -> S), exists x, unsigned_field r pos size bad err set = Val x.
Proof. intros. unfold unsigned_field. destruct (UInt_returns r Hneg pos size) as [v ->]. destruct (bad _); eauto. Qed.
Lemma binary_returns : forall S pos size (c : S) set, exists x, binary_field r pos size c set = Val x.
Proof. intros. unfold binary_field. destruct (_ <=? _); [eauto|]. destruct (alloc_fails _); [eauto|]. destruct (r_read _ _ _); eauto. Qed.
Lemma rate_returns : forall S pos size old (set : f64 -> S), exists x, rate_field r pos size old set = Val x.
Proof. intros. unfold rate_field. destruct (Float_returns r Hneg pos size old) as [[st v] ->]. destruct (_ <? _); [eauto|]. destruct (SFleb _ _); eauto. Qed.
Lemma chroma_returns : forall pos size x c, exists y, Chromaticity_Parse r pos size x c = Val y.
Proof. intros. unfold Chromaticity_Parse. destruct (Float_returns r Hneg pos size d_zero) as [[st v] ->]. destruct (_ || _); [eauto|]. destruct (match c with None => _ | Some c => c end). eauto. Qed.
Lemma luminance_returns : forall pos size lim, exists y, Luminance_Parse r pos size lim = Val y.
Proof. intros. unfold Luminance_Parse. destruct (Float_returns r Hneg pos size d_zero) as [[st v] ->]. destruct (not_a_float _); [eauto|]. cbv zeta. destruct (_ || _); eauto. Qed.
Lemma pose_returns : forall pos size, exists y, Pose_Parse r pos size = Val y.
Proof. intros. unfold Pose_Parse. destruct (Float_returns r Hneg pos size d_zero) as [[st v] ->]. destruct (_ || _); eauto. Qed.
Lemma on_some_returns : forall S A (x : outcome (option A)) (s : S) set, (exists y, x = Val y) -> exists y, on_some x s set = Val y.
Proof. intros S A x s set [[y|] ->]; unfold on_some; eauto. Qed.
Lemma as_bool_returns : forall S (x : outcome (Z * S)), (exists y, x = Val y) -> exists y, as_bool x = Val y.
Proof. intros S x [[st s] ->]. unfold as_bool. eauto. Qed.

Ltac ret2 :=
  match goal with
  | |- exists x, (if ?b then _ else _) = Val x => destruct b
  | |- exists x, Val _ = Val x => eexists; reflexivity
  | |- exists x, string_field _ _ _ _ = Val x => apply string_field_returns
  | |- exists x, uint_field _ _ _ _ _ = Val x => apply uint_field_returns; exact Hneg
  | |- exists x, unsigned_field _ _ _ _ _ _ = Val x => apply unsigned_returns
  | |- exists x, binary_field _ _ _ _ _ = Val x => apply binary_returns
  | |- exists x, rate_field _ _ _ _ _ = Val x => apply rate_returns
  | |- exists x, on_negative _ _ = Val x => apply on_negative_returns
  | |- exists x, on_status _ _ = Val x => apply on_status_returns
  | |- exists x, (match UnserializeUInt r ?p ?n with _ => _ end) = Val x => let v := fresh in let E := fresh in destruct (UInt_returns r Hneg p n) as [v E]; rewrite E
  | |- exists x, (let '(_, _) := UnserializeString ?r ?p ?n in _) = Val x => destruct (UnserializeString r p n)
  | |- exists x, (match r_read ?r ?p ?n with _ => _ end) = Val x => destruct (r_read r p n)
  | |- exists x, (match ?o with Some _ => _ | None => _ end) = Val x => destruct o
  end.

Lemma AES_returns : forall pos size m, 0 <= pos -> pos + size <= LLONG_MAX -> exists x, AESSettings_Parse r pos size m = Val x.
Proof. intros. apply payload; auto. intros id p n s _ _. unfold aes_element. repeat ret2. Qed.
Lemma Encryption_returns : forall pos size, 0 <= pos -> pos + size <= LLONG_MAX -> exists x, Encryption_Parse r pos size = Val x.
Proof.
  intros. apply payload; auto. intros id p n [al k sg sk sa sh cm] H1 H2. unfold encryption_element.
  destruct (id =? kMkvContentEncAESSettings) eqn:E; [destruct (AES_returns p n cm H1 H2) as [[? ?] Ea]; rewrite Ea|]; repeat ret2.
Qed.
Lemma Compression_returns : forall pos size, 0 <= pos -> pos + size <= LLONG_MAX -> exists x, Compression_Parse r pos size = Val x.
Proof.
  intros pos size H H0. unfold Compression_Parse.
  match goal with |- context [walk_payload r ZPass ?h pos size ?s] => destruct (payload _ ZPass h pos size s) as [[st [c v]] ->]; auto end.
  - intros id p n [[algo st] v] _ _. assert (G : exists x, compression_element r id p n (mkPComp algo st, v) = Val x).
    { unfold compression_element. destruct (id =? kMkvContentCompAlgo); [repeat ret2|]. destruct (id =? kMkvContentCompSettings); [|repeat ret2].
      destruct (binary_returns _ p n (mkPComp algo st, v) (fun b => (mkPComp algo (Some b), v))) as [[s|? s] ->]; repeat ret2. }
    destruct G as [[s|x s] ->]; repeat ret2.
  - repeat ret2.
Qed.
Lemma Encoding_returns : forall pos size, 0 <= pos -> pos + size <= LLONG_MAX -> exists x, Encoding_Parse r pos size = Val x.
Proof.
  intros pos size H H0. unfold Encoding_Parse. destruct (payload _ ZPass count_two pos size (0, 0)) as [[st [c e]] ->]; auto.
  { intros id p n [c e] _ _. unfold count_two. repeat ret2. }
  destruct (negb _); [repeat ret2|]. destruct (_ && _); [repeat ret2|]. apply payload; auto. intros id p n [cs es od sc ty] H1 H2. unfold encoding_element.
  destruct (Compression_returns p n H1 H2) as [[? ?] Ec]. destruct (Encryption_returns p n H1 H2) as [[? ?] Ee]. rewrite Ec, Ee. repeat ret2.
Qed.
Lemma count_returns : forall zr id0 pos size n, 0 <= pos -> pos + size <= LLONG_MAX -> exists x, walk_payload r zr (count_element id0) pos size n = Val x.
Proof. intros. apply payload; auto. intros id p k s _ _. unfold count_element. repeat ret2. Qed.
Lemma Encodings_returns : forall pos size, 0 <= pos -> pos + size <= LLONG_MAX -> exists x, Encodings_Parse r pos size = Val x.
Proof.
  intros pos size H H0. unfold Encodings_Parse. destruct (count_returns ZPass kMkvContentEncoding pos size 0 H H0) as [[st n] ->].
  destruct (negb _); [repeat ret2|]. destruct (_ <=? _); [repeat ret2|]. apply payload; auto. intros id p k l H1 H2. unfold encodings_element. destruct (Encoding_returns p k H1 H2) as [[? ?] ->]. repeat ret2.
Qed.
Lemma Mastering_returns : forall pos size, 0 <= pos -> pos + size <= LLONG_MAX -> exists x, MasteringMetadata_Parse r pos size = Val x.
Proof.
  intros. apply as_bool_returns. apply payload; auto. intros id p n [mx mn cr cg cb cw] _ _. unfold mastering_element.
  repeat match goal with |- context [if ?b then _ else _] => destruct b end; try ret2; apply on_some_returns; apply luminance_returns || apply chroma_returns.
Qed.
Lemma Colour_returns : forall pos size, 0 <= pos -> pos + size <= LLONG_MAX -> exists x, Colour_Parse r pos size = Val x.
Proof.
  intros. apply as_bool_returns. apply payload; auto. intros id p n [mc bpc csh csv cbh cbv sih siv rg tc pr cll fall mm] H1 H2. unfold colour_element.
  destruct (Mastering_returns p n H1 H2) as [[? ?] ->]. repeat ret2.
Qed.
Lemma Projection_returns : forall pos size, 0 <= pos -> pos + size <= LLONG_MAX -> exists x, Projection_Parse r pos size = Val x.
Proof.
  intros. apply as_bool_returns. apply payload; auto. intros id p n [ty pv ya pi ro] H1 H2. unfold projection_element.
  destruct (pose_returns p n) as [[v|] ->]; repeat ret2.
Qed.
Lemma Video_returns : forall pos size, 0 <= pos -> pos + size <= LLONG_MAX -> exists x, Video_Parse r pos size = Val x.
Proof.
  intros. apply payload; auto. intros id p n [w h dw dh du sm ra cs co pj] H1 H2. unfold video_element.
  destruct (Colour_returns p n H1 H2) as [[? ?] ->]. destruct (Projection_returns p n H1 H2) as [[? ?] ->]. repeat ret2.
Qed.
Lemma Audio_returns : forall pos size, 0 <= pos -> pos + size <= LLONG_MAX -> exists x, Audio_Parse r pos size = Val x.
Proof. intros. apply payload; auto. intros id p n [ra ch bd] H1 H2. unfold audio_element. repeat ret2. Qed.

(* the recorded places lie in the file *)
Definition place_ok (x : Z * Z) : Prop := fst x < 0 \/ fst x + snd x <= LLONG_MAX.
Lemma uid_loop_neg : forall n pos acc st, uid_loop r n pos acc = inl st -> st < 0.
Proof.
  induction n as [|n IH]; intros pos acc st H; cbn [uid_loop] in H; [discriminate H|]. destruct (r_byte r pos) as [s|b] eqn:E; [|exact (IH _ _ _ H)]. injection H as <-. exact (byte_neg r Hneg _ _ E).
Qed.
Lemma entry_returns : forall id p n s, exists x, entry_element r id p n s = Val x.
Proof.
  intros id p n [[ty nu ui dd cd sp na la ci cn cp lc] v a e]. unfold entry_element.
  destruct (id =? kMkvVideo); [repeat ret2|]. destruct (id =? kMkvAudio); [repeat ret2|]. destruct (id =? kMkvContentEncodings); [repeat ret2|].
  destruct (id =? kMkvTrackUID); [|repeat ret2]. destruct (n >? 8); [repeat ret2|]. destruct (uid_loop r (Z.to_nat n) p 0) as [st|x] eqn:E; [|repeat ret2].
  apply uid_loop_neg in E. destruct (Z.eqb_spec st 0); [lia|repeat ret2].
Qed.

(* an invariant of the loop, for its successful end; the body is called with
   places inside the file only *)
Lemma walk_keeps : forall S zr (h : Z -> Z -> Z -> S -> outcome (step S)) (P : S -> Prop),
  (forall id pos size s, 0 <= pos -> pos + size <= LLONG_MAX -> P s -> match h id pos size s with Val (Next s') => P s' | Val (Ret st s') => st = 0 -> P s' | UB => True end) ->
  forall fuel pos stop s s', 0 <= pos -> P s -> walk fuel r zr h pos stop s = Val (0, s') -> P s'.
Proof. clear Hneg.
  intros S zr h P Hh. induction fuel as [|fuel IH]; intros pos stop s s' Hp Ps E; cbn [walk] in E.
  - destruct (stop <=? pos); [|discriminate E]. injection E as _ <-. exact Ps.
  - destruct (stop <=? pos); [injection E as _ <-; exact Ps|].
    destruct (ParseElementHeader r pos stop) as (((st, pos'), id), size) eqn:EP.
    destruct (Z.ltb_spec st 0); [injection E as -> <-; lia|].
    assert (st = 0).
    { unfold ParseElementHeader in EP. repeat match type of EP with (if ?b then _ else _) = _ => destruct b | (let '(_, _) := ?x in _) = _ => destruct x end; injection EP; intros; unfold E_FILE_FORMAT_INVALID in *; lia. }
    subst st. destruct (ParseElementHeader_range _ _ _ _ _ _ Hwf Hp EP) as (H1 & H2 & H4 & H5 & H3).
    assert (HL : pos' + size <= LLONG_MAX) by (unfold LLONG_MAX in *; lia).
    destruct ((size =? 0) && _); [apply (IH pos' stop s); [lia|exact Ps|exact E]|]. destruct ((size =? 0) && _); [discriminate E|].
    specialize (Hh id pos' size s ltac:(lia) HL Ps). destruct (h id pos' size s) as [[s1|st s1]|]; [| |discriminate E].
    + destruct (pos' + size >? LLONG_MAX); [discriminate E|]. destruct (pos' + size >? stop); [discriminate E|]. apply (IH (pos' + size) stop s1); [lia|exact Hh|exact E].
    + injection E as -> <-. auto.
Qed.
Lemma payload_keeps : forall S zr (h : Z -> Z -> Z -> S -> outcome (step S)) (P : S -> Prop),
  (forall id pos size s, 0 <= pos -> pos + size <= LLONG_MAX -> P s -> match h id pos size s with Val (Next s') => P s' | Val (Ret st s') => st = 0 -> P s' | UB => True end) ->
  forall pos size s s', 0 <= pos -> P s -> walk_payload r zr h pos size s = Val (0, s') -> P s'.
Proof. clear Hneg. intros S zr h P Hh pos size s s' Hp Ps E. unfold walk_payload in E. destruct (_ >? _); [discriminate E|]. exact (walk_keeps S zr h P Hh _ _ _ _ _ Hp Ps E). Qed.

Definition scan_ok (s : tscan) : Prop :=
  0 <= ti_number (ts_info s) <= 127 /\ 0 <= ti_type (ts_info s) <= 254 /\ 0 <= ti_lacing (ts_info s) <= 1 /\ 0 <= ti_default_duration (ts_info s) /\
  place_ok (ts_v s) /\ place_ok (ts_a s) /\ place_ok (ts_e s).
Lemma entry_keeps : forall id pos size s, 0 <= pos -> pos + size <= LLONG_MAX -> scan_ok s ->
  match entry_element r id pos size s with Val (Next s') => scan_ok s' | Val (Ret st s') => st = 0 -> scan_ok s' | UB => True end.
Proof. clear Hneg.
  intros id pos size [[ty nu ui dd cd sp na la ci cn cp lc] v a e] Hp HL H.
  assert (Pl : place_ok (pos, size)) by (right; exact HL).
  assert (Ef : E_FILE_FORMAT_INVALID <> 0) by discriminate.
  unfold entry_element.
  repeat match goal with |- context [if id =? ?k then _ else _] => destruct (id =? k) end;
    unfold string_field, uint_field, unsigned_field, on_status, any; unfold scan_ok in *; cbn [ts_info ts_v ts_a ts_e ti_number ti_type ti_lacing ti_default_duration] in *;
    repeat match goal with
    | |- match (match UnserializeUInt ?a ?b ?c with _ => _ end) with _ => _ end => destruct (UnserializeUInt a b c)
    | |- match (let '(_, _) := UnserializeString ?a ?b ?c in _) with _ => _ end => destruct (UnserializeString a b c)
    | |- match (match uid_loop ?a ?b ?c ?d with _ => _ end) with _ => _ end => destruct (uid_loop a b c d)
    | |- match (match r_read ?a ?b ?c with _ => _ end) with _ => _ end => destruct (r_read a b c)
    | |- match (if ?b then _ else _) with _ => _ end => let E := fresh in destruct b eqn:E
    end; try exact I; cbn [ts_info ts_v ts_a ts_e ti_number ti_type ti_lacing ti_default_duration]; try (intros F; exfalso; congruence); try tauto; try (intros F; tauto);
    decompose [and] H; try (intros F; exfalso; lia); repeat (split; [(assumption || lia)|]); (assumption || lia).
Qed.

Lemma with_encodings_returns : forall t k e, place_ok e -> exists x, with_encodings r t k e = Val x.
Proof.
  intros t k e He. unfold with_encodings. destruct (Z.geb_spec (fst e) 0); [|repeat ret2]. destruct He as [He|He]; [lia|]. destruct (Encodings_returns (fst e) (snd e)) as [[? ?] ->]; [lia|lia|]. repeat ret2.
Qed.
Lemma init_ok : scan_ok ts_init.
Proof. unfold scan_ok, place_ok. cbn [ts_init ti_init ts_info ts_v ts_a ts_e ti_number ti_type ti_lacing ti_default_duration fst snd]. lia. Qed.
Lemma Entry_returns : forall l pos size, 0 <= pos -> pos + size <= LLONG_MAX -> exists x, ParseTrackEntry r l pos size = Val x.
Proof.
  intros l pos size Hp HL. unfold ParseTrackEntry. destruct (payload _ ZPass (entry_element r) pos size ts_init) as [[st [i v a e]] E]; auto using entry_returns. rewrite E.
  destruct (Z.eqb_spec st 0) as [->|]; cbn [negb]; [|repeat ret2].
  destruct (payload_keeps _ _ _ scan_ok entry_keeps _ _ _ _ Hp init_ok E) as (_ & _ & _ & _ & Pv & Pa & Pe). cbn [ts_v ts_a ts_e] in *.
  destruct (_ <=? _); [repeat ret2|]. destruct (GetTrackByNumber l (ti_number i)); [repeat ret2|]. destruct (_ <=? _); [repeat ret2|].
  destruct (_ =? 1).
  - destruct (Z.ltb_spec (fst v) 0); [repeat ret2|]. destruct (_ >=? _); [repeat ret2|]. destruct Pv as [Pv|Pv]; [lia|]. destruct (Video_returns (fst v) (snd v)) as [[? ?] ->]; [lia|lia|].
    destruct (negb _); [repeat ret2|]. apply with_encodings_returns. exact Pe.
  - destruct (_ =? 2); [|repeat ret2].
    destruct (Z.ltb_spec (fst a) 0); [repeat ret2|]. destruct (_ >=? _); [repeat ret2|]. destruct Pa as [Pa|Pa]; [lia|]. destruct (Audio_returns (fst a) (snd a)) as [[? ?] ->]; [lia|lia|].
    destruct (negb _); [repeat ret2|]. apply with_encodings_returns. exact Pe.
Qed.
Lemma Tracks_returns : forall pos size, 0 <= pos -> pos + size <= LLONG_MAX -> exists x, Tracks_Parse r pos size = Val x.
Proof.
  intros pos size Hp HL. unfold Tracks_Parse. destruct (count_returns ZSkip kMkvTrackEntry pos size 0 Hp HL) as [[st n] ->].
  destruct (negb _); [repeat ret2|]. destruct (_ <=? _); [repeat ret2|]. apply payload; auto. intros id p k l H1 H2. unfold tracks_element. destruct (Entry_returns l p k H1 H2) as [[? ?] ->]. repeat ret2.
Qed.

(* ---------- what they report is sound ---------- *)

Lemma uint_keeps : forall S pos size bad (set : Z -> S) (P : S -> Prop), (forall v, bad v = false -> P (set v)) ->
  match uint_field r pos size bad set with Val (Next s') => P s' | Val (Ret st s') => st = 0 -> P s' | UB => True end.
Proof. clear Hneg. intros S pos size bad set P H. unfold uint_field. destruct (UnserializeUInt r pos size) as [v|]; [|exact I]. destruct (bad v) eqn:E; [discriminate|auto]. Qed.
Lemma rate_keeps : forall S pos size old (set : f64 -> S) (P : S -> Prop), (forall v, P (set v)) ->
  match rate_field r pos size old set with Val (Next s') => P s' | Val (Ret st s') => st = 0 -> P s' | UB => True end.
Proof. clear Hneg. intros S pos size old set P H. unfold rate_field. destruct (ParseFloat r pos size old) as [[st v]|]; [|exact I]. destruct (_ <? _); [auto|]. destruct (SFleb _ _); auto. Qed.

Definition video_sound (v : p_video) : Prop :=
  0 <= pv_width v /\ 0 <= pv_height v /\ 0 <= pv_display_width v /\ 0 <= pv_display_height v /\ 0 <= pv_display_unit v /\ 0 <= pv_stereo_mode v.
Lemma video_keeps : forall id pos size s, 0 <= pos -> pos + size <= LLONG_MAX -> video_sound s ->
  match video_element r id pos size s with Val (Next s') => video_sound s' | Val (Ret st s') => st = 0 -> video_sound s' | UB => True end.
Proof. clear Hneg.
  intros id pos size [w h dw dh du sm ra cs co pj] _ _ H. unfold video_element, video_sound in *. cbn [pv_width pv_height pv_display_width pv_display_height pv_display_unit pv_stereo_mode] in *.
  repeat match goal with |- context [if id =? ?k then _ else _] => destruct (id =? k) end;
    try (apply uint_keeps; intros v Hv; cbn [pv_width pv_height pv_display_width pv_display_height pv_display_unit pv_stereo_mode]; lia);
    try (apply rate_keeps; intros v; cbn [pv_width pv_height pv_display_width pv_display_height pv_display_unit pv_stereo_mode]; lia).
  - destruct (Colour_Parse r pos size) as [[[|] c]|]; [exact H|intros _; exact H|exact I].
  - destruct (Projection_Parse r pos size) as [[[|] c]|]; [exact H|intros _; exact H|exact I].
  - destruct (UnserializeString r pos size) as [st x]. unfold on_negative. destruct (st <? 0); [intros _|]; exact H.
  - exact H.
Qed.
Definition audio_sound (a : p_audio) : Prop := 1 <= pau_channels a /\ 0 <= pau_bit_depth a.
Lemma audio_keeps : forall id pos size s, 0 <= pos -> pos + size <= LLONG_MAX -> audio_sound s ->
  match audio_element r id pos size s with Val (Next s') => audio_sound s' | Val (Ret st s') => st = 0 -> audio_sound s' | UB => True end.
Proof. clear Hneg.
  intros id pos size [ra ch bd] _ _ H. unfold audio_element, audio_sound in *. cbn [pau_channels pau_bit_depth] in *.
  repeat match goal with |- context [if id =? ?k then _ else _] => destruct (id =? k) end;
    try (apply uint_keeps; intros v Hv; cbn [pau_channels pau_bit_depth]; lia); try (apply rate_keeps; intros v; cbn [pau_channels pau_bit_depth]; lia). exact H.
Qed.

Lemma with_encodings_inv : forall i k e t, with_encodings r i k e = Val (0, Some t) -> pt_info t = i /\ pt_kind t = k.
Proof. clear Hneg.
  intros i k e t H. unfold with_encodings in H. destruct (_ >=? _); [destruct (Encodings_Parse _ _ _) as [[? l]|]; [|discriminate H]|]; injection H as <-; auto.
Qed.
Lemma Entry_sound : forall l pos size t, 0 <= pos -> ParseTrackEntry r l pos size = Val (0, Some t) -> sound_track t /\ GetTrackByNumber l (ti_number (pt_info t)) = None.
Proof. clear Hneg.
  intros l pos size t Hp H. unfold ParseTrackEntry in H.
  destruct (walk_payload r ZPass (entry_element r) pos size ts_init) as [[st [i v a e]]|] eqn:E; [|discriminate H].
  destruct (Z.eqb_spec st 0) as [->|Hst]; cbn [negb] in H; [|injection H; intros; contradiction].
  destruct (payload_keeps _ _ _ scan_ok entry_keeps _ _ _ _ Hp init_ok E) as (Pn & Pt & Pl & Pd & _ & _ & _). cbn [ts_info] in *.
  destruct (Z.leb_spec (ti_number i) 0); [discriminate H|]. destruct (GetTrackByNumber l (ti_number i)) eqn:EG; [discriminate H|]. destruct (Z.leb_spec (ti_type i) 0); [discriminate H|].
  assert (EC : ti_number (Info_Copy i) = ti_number i /\ ti_type (Info_Copy i) = ti_type i /\ ti_lacing (Info_Copy i) = ti_lacing i /\ ti_default_duration (Info_Copy i) = ti_default_duration i) by (destruct i; auto).
  destruct EC as (C1 & C2 & C3 & C4).
  destruct (Z.eqb_spec (ti_type i) 1).
  - destruct (Z.ltb_spec (fst v) 0); [discriminate H|]. destruct (_ >=? _); [discriminate H|]. destruct (Video_Parse r (fst v) (snd v)) as [[s x]|] eqn:EV; [|discriminate H].
    destruct (Z.eqb_spec s 0) as [->|Hs]; cbn [negb] in H; [|injection H; intros; contradiction]. destruct (with_encodings_inv _ _ _ _ H) as [Ei Ek]. unfold sound_track. rewrite Ei, Ek, C1, C2, C3, C4.
    assert (VS : video_sound x) by (apply (payload_keeps _ _ _ video_sound video_keeps _ _ _ _ H2) in EV; [exact EV|unfold video_sound; cbn; lia]). unfold video_sound in VS. split; [lia|exact EG].
  - destruct (Z.eqb_spec (ti_type i) 2).
    + destruct (Z.ltb_spec (fst a) 0); [discriminate H|]. destruct (_ >=? _); [discriminate H|]. destruct (Audio_Parse r (fst a) (snd a)) as [[s x]|] eqn:EV; [|discriminate H].
      destruct (Z.eqb_spec s 0) as [->|Hs]; cbn [negb] in H; [|injection H; intros; contradiction]. destruct (with_encodings_inv _ _ _ _ H) as [Ei Ek]. unfold sound_track. rewrite Ei, Ek, C1, C2, C3, C4.
      assert (VS : audio_sound x) by (apply (payload_keeps _ _ _ audio_sound audio_keeps _ _ _ _ H2) in EV; [exact EV|unfold audio_sound; cbn; lia]). unfold audio_sound in VS. split; [lia|exact EG].
    + destruct (_ >=? _); [discriminate H|]. destruct (_ >=? _); [discriminate H|]. destruct (_ && _); [discriminate H|]. injection H as <-. unfold sound_track. cbn [pt_info pt_kind pt_encodings]. rewrite C1, C2, C3, C4.
      split; [|exact EG]. split; [lia|]. split; [lia|]. split; [lia|]. split; [lia|]. split; [lia|]. split; [lia|reflexivity].
Qed.
End Returns.

Lemma free_number : forall l n, 0 <= n -> GetTrackByNumber l n = None -> ~ In n (map (fun t => ti_number (pt_info t)) l).
Proof.
  induction l as [|t l IH]; intros n Hn H F; [exact F|]. cbn [GetTrackByNumber] in H. destruct (Z.ltb_spec n 0); [lia|]. destruct (Z.eqb_spec n (ti_number (pt_info t))); [discriminate H|].
  destruct F as [F|F]; [congruence|]. exact (IH n Hn H F).
Qed.
Lemma Tracks_sound : forall r pos size l, wf_reader r -> r_avail r <= 2 ^ 62 -> 0 <= pos -> Tracks_Parse r pos size = Val (0, l) -> sound_tracks l.
Proof.
  intros r pos size l Hwf Hav Hp H. unfold Tracks_Parse in H. destruct (walk_payload r ZSkip (count_element kMkvTrackEntry) pos size 0) as [[st n]|]; [|discriminate H].
  destruct (Z.eqb_spec st 0) as [->|Hs]; cbn [negb] in H; [|injection H; intros; contradiction]. destruct (_ <=? _); [injection H as <-; split; constructor|].
  refine (payload_keeps r Hwf Hav _ ZSkip (tracks_element r) sound_tracks _ _ _ _ _ Hp _ H); [|split; constructor].
  intros id p k s P1 P2 [S1 S2]. unfold tracks_element. destruct (id =? kMkvTrackEntry); [|split; assumption].
  destruct (ParseTrackEntry r s p k) as [[st [t|]]|] eqn:E; [| |exact I]; (destruct (Z.eqb_spec st 0) as [->|Hs]; cbn [negb]; [|intros F; contradiction]); [|split; assumption].
  destruct (Entry_sound r Hwf Hav s p k t P1 E) as [St Sg]. split.
  - apply Forall_app. split; [exact S1|]. constructor; [exact St|constructor].
  - rewrite map_app. cbn [map]. apply NoDup_Add with (a := ti_number (pt_info t)) (l := map (fun t => ti_number (pt_info t)) s).
    + replace (map (fun t => ti_number (pt_info t)) s) with (map (fun t => ti_number (pt_info t)) s ++ []) at 1 by apply app_nil_r. apply Add_app.
    + split; [exact S2|]. apply free_number; [destruct St as ((? & ?) & _); lia|exact Sg].
Qed.

Lemma by_number : forall l n t, sound_tracks l -> (GetTrackByNumber l n = Some t <-> In t l /\ ti_number (pt_info t) = n).
Proof.
  intros l n t [S1 S2]. induction l as [|x l IH]; cbn [GetTrackByNumber].
  - destruct (n <? 0); split; intros H; try discriminate H; destruct H as [[] _].
  - inversion S1 as [|? ? Sx S1']; subst. cbn [map] in S2. inversion S2 as [|? ? Nx S2']; subst. specialize (IH S1' S2').
    destruct (Z.ltb_spec n 0) as [L|L].
    { split; intros H; [discriminate H|]. destruct H as [Hi <-]. exfalso. assert (1 <= ti_number (pt_info t)); [|lia].
      destruct Hi as [<-|Hi]; [apply Sx|]. rewrite Forall_forall in S1'. apply S1'. exact Hi. }
    destruct (Z.eqb_spec n (ti_number (pt_info x))) as [->|Hn].
    + split; intros H; [injection H as <-; split; [left|]; reflexivity|]. destruct H as [[->|Hi] E]; [reflexivity|]. exfalso. apply Nx. rewrite <- E. exact (in_map (fun t => ti_number (pt_info t)) l t Hi).
    + split; intros H; [apply IH in H as [Hi E]; split; [right; exact Hi|exact E]|]. destruct H as [[->|Hi] E]; [congruence|]. apply IH. auto.
Qed.
