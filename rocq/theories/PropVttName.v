(* C75: vttdemux puts every WebVTT track into a file of its own. *)
From Coq Require Import ZifyBool ZifyNat Sorting.Sorted String Ascii.
From Verif Require Import Base VttNameSpec MVttMux PVttMux MVttName PVttName.

(* Whatever tracks and chapters a WebM file has, and whichever files can be opened: no
   file is opened twice, the input file is never opened, and every file opened belongs to
   a WebVTT track (or the chapters) and is named for its kind, and by its number exactly
   when there are others of the kind.  If the result is true, every WebVTT track has its
   file; it is true if all files can be opened. *)
Theorem C75_own_file : forall can_open chapters ts filename base ext ok fs,
  (forall t c, In t ts -> snd t = Some c -> no_nul c) -> (forall t, In t ts -> fst t < 2 ^ 63) ->
  no_nul filename -> filename = base ++ text "." ++ ext -> ~ In 46 ext ->
  OpenFiles can_open (BuildMap chapters ts) filename = (ok, fs) ->
  NoDup (map snd fs) /\ NoDup (map fst fs) /\ ~ In filename (map snd fs) /\
  (forall n name, In (n, name) fs -> exists k, is_kind chapters ts n k /\ named_for chapters ts base n k name) /\
  (ok = true -> forall n k, is_kind chapters ts n k -> exists name, In (n, name) fs) /\
  ((forall name, can_open name = true) -> ok = true).
Proof.
  intros can_open chapters ts filename base ext ok fs HC HN HF EF HE HO. change (text ".") with [46] in EF.
  assert (BI : forall n k, In (n, k) (BuildMap chapters ts) <-> is_kind chapters ts n k) by (intros n k; exact (proj2 (build_in chapters ts n k HC))).
  pose proof (proj1 (build_in chapters ts 0 Chapters HC)) as HS. set (m := BuildMap chapters ts) in *.
  assert (HR : forall x, In x m -> 0 <= fst x < 2 ^ 63).
  { intros [n k] Hx. cbn [fst]. apply BI in Hx. destruct Hx as [(-> & _)|(a & t & b & -> & (K1 & K2 & _) & _)]; [lia|]. specialize (HN t ltac:(apply in_or_app; right; left; reflexivity)). lia. }
  assert (HB : no_nul base) by (intro K; apply HF; rewrite EF; apply in_or_app; left; exact K).
  unfold OpenFiles in HO. rewrite EF, (last_dot_is base ext HE) in HO. destruct (open_is can_open base m m ok fs HB HR HO) as (pre & post & EM & -> & H1 & H2).
  assert (HP : forall x, In x pre -> In x m) by (intros x Hx; rewrite EM; apply in_or_app; left; exact Hx).
  assert (ND : NoDup (map fst pre)).
  { assert (NM : NoDup (map fst m)). { clear - HS. induction m as [|x l IH]; [constructor|]. apply StronglySorted_inv in HS. destruct HS as [HS HF]. cbn [map]. constructor; [|exact (IH HS)].
      intro K. apply in_map_iff in K. destruct K as (y & E & Hy). rewrite Forall_forall in HF. specialize (HF y Hy). lia. }
    rewrite EM, map_app in NM. clear - NM. induction (map fst pre) as [|x l IH]; [constructor|]. cbn [app] in NM. apply NoDup_cons_iff in NM. destruct NM as [K NM]. constructor; [intro Q; apply K; apply in_or_app; left; exact Q|exact (IH NM)]. }
  rewrite !map_map. cbn [fst snd]. split; [|split; [exact ND|split; [|split; [|split; [|exact H2]]]]].
  - assert (NP : NoDup pre) by (exact (NoDup_map_inv _ _ ND)). clear - NP HP HS HR. induction pre as [|v pre IH]; [constructor|]. apply NoDup_cons_iff in NP. destruct NP as [K NP]. cbn [map]. constructor.
    + intro Q. apply in_map_iff in Q. destruct Q as (w & E & Hw). apply K. rewrite <- (names_differ base m w v HS (HP w ltac:(right; exact Hw)) (HP v ltac:(left; reflexivity)) HR E). exact Hw.
    + apply IH; [|exact NP]. intros x Hx. apply HP. right. exact Hx.
  - intro K. apply in_map_iff in K. destruct K as (v & E & _). rewrite output_is, EF in E. apply app_inv_head in E. apply (f_equal (hd 0)) in E. rewrite kind_hd in E. change (hd 0 ([46] ++ ext)) with 46 in E. lia.
  - intros n name Hn. apply in_map_iff in Hn. destruct Hn as ([n' k] & E & Hv). cbn [fst] in E. injection E as -> <-. pose proof (HP _ Hv) as Hm. exists k. split; [apply BI; exact Hm|].
    rewrite output_is. cbn [fst snd]. eexists. split; [reflexivity|]. pose proof (HR _ Hm) as R. cbn [fst] in R. destruct (count_of k m >? 1) eqn:E.
    + right. split; [|exact (ll_decimal_of n R)]. destruct (List.existsb (fun v => kind_eqb (snd v) k && negb (fst v =? n)) m) eqn:X.
      * apply List.existsb_exists in X. destruct X as ([a b] & Ha & Hb). apply andb_prop in Hb. destruct Hb as [Hb1 Hb2]. apply kind_eqb_eq in Hb1. cbn [fst snd] in *. subst b. exists a. split; [lia|apply BI; exact Ha].
      * exfalso. rewrite (count_one k m n HS Hm) in E; [discriminate E|]. intros a Ha. destruct (Z.eq_dec a n) as [Q|Q]; [exact Q|exfalso].
        assert (X2 : List.existsb (fun v => kind_eqb (snd v) k && negb (fst v =? n)) m = true); [|congruence].
        apply List.existsb_exists. exists (a, k). split; [exact Ha|]. cbn [fst snd]. rewrite (proj2 (kind_eqb_eq k k) eq_refl). lia.
    + left. split; [|reflexivity]. intros a Ha. apply BI in Ha. destruct (Z.eq_dec a n) as [Q|Q]; [exact Q|exfalso]. rewrite (count_many k m a n HS Ha Hm Q) in E. discriminate E.
  - intros -> n k Hk. apply BI in Hk. rewrite EM, (H1 eq_refl), app_nil_r in Hk. exists (output_name base m (n, k)). apply in_map_iff. exists (n, k). split; [reflexivity|exact Hk].
Qed.
Print Assumptions C75_own_file.

(* a name without a dot: nothing is opened *)
Theorem C75_no_extension : forall can_open m filename, ~ In 46 filename -> OpenFiles can_open m filename = (false, []).
Proof.
  intros can_open m filename H. unfold OpenFiles. pose proof (last_dot filename) as K. destruct (before_last_dot filename) as [b|]; [|reflexivity].
  destruct K as (e & -> & _). exfalso. apply H. apply in_or_app. right. left. reflexivity.
Qed.
Print Assumptions C75_no_extension.

(* chapters, a video track, captions, and two tracks of subtitles; b.webm *)
Definition ex_tracks : list track_info :=
  [(1, Some (text "V_VP9")); (12, Some (text "D_WEBVTT/SUBTITLES")); (3, Some (text "D_WEBVTT/CAPTIONS")); (4, Some (text "D_WEBVTT/SUBTITLES")); (5, None)].
Example C75_ex : OpenFiles (fun _ => true) (BuildMap true ex_tracks) (text "a.b.webm") =
  (true, [(0, text "a.b_CHAPTERS.vtt"); (3, text "a.b_CAPTIONS.vtt"); (4, text "a.b_SUBTITLES4.vtt"); (12, text "a.b_SUBTITLES12.vtt")]).
Proof. vm_compute. reflexivity. Qed.
Example C75_ex_meets : (forall t c, In t ex_tracks -> snd t = Some c -> no_nul c) /\ (forall t, In t ex_tracks -> fst t < 2 ^ 63) /\
  no_nul (text "a.b.webm") /\ text "a.b.webm" = text "a.b" ++ text "." ++ text "webm" /\ ~ In 46 (text "webm").
Proof.
  split; [intros t c Ht E; repeat (destruct Ht as [<-|Ht]; [cbn [snd] in E; first [discriminate E|injection E as <-; apply in_no0; reflexivity]|]); destruct Ht|].
  split; [intros t Ht; repeat (destruct Ht as [<-|Ht]; [cbn; lia|]); destruct Ht|]. split; [apply in_no0; reflexivity|]. split; [reflexivity|]. vm_compute. intuition discriminate.
Qed.

(* "Without its extension" is more than that when the last dot is in a directory's name:
   the text of d.1/movie goes to d_CAPTIONS.vtt, outside of d.1. *)
Theorem C75_directory_refuted : exists dir file, ~ In 46 file /\
  OpenFiles (fun _ => true) (BuildMap false [(3, Some (text "D_WEBVTT/CAPTIONS"))]) (dir ++ text "/" ++ file) = (true, [(3, text "d_CAPTIONS.vtt")]).
Proof. exists (text "d.1"), (text "movie"). split; [vm_compute; intuition discriminate|vm_compute; reflexivity]. Qed.
Print Assumptions C75_directory_refuted.
(* "A file of its own" fails for tracks that share a number: the map keeps the last one. *)
Theorem C75_same_number_refuted : exists ts fs, ts = [(3, Some (text "D_WEBVTT/CAPTIONS")); (3, Some (text "D_WEBVTT/SUBTITLES"))] /\
  OpenFiles (fun _ => true) (BuildMap false ts) (text "m.webm") = (true, fs) /\ map snd fs = [text "m_SUBTITLES.vtt"].
Proof. do 2 eexists. split; [reflexivity|]. split; [vm_compute; reflexivity|reflexivity]. Qed.
Print Assumptions C75_same_number_refuted.
