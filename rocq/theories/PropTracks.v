(* C20: track numbers. *)
From Coq Require Import ZifyBool ZifyNat.
From Verif Require Import Base MWriter WriterSpec MFloat MMuxUtil Ids MMuxBlock MMuxMeta MMuxSegment TracksSpec PMuxTracks.

Lemma NoDup_tail : forall A (x : A) l, NoDup (x :: l) -> NoDup l.
Proof. intros A x l H. inversion H; assumption. Qed.
Arguments NoDup_tail {A x l}.

(* Any sequence of additions, automatic (0) or explicit, to an empty track list:
   every call returns, the list consists of the tracks whose addition succeeded,
   in order, explicit numbers are respected, and all numbers are different and
   not 0. *)
Theorem C20_numbers_unique : forall adds, zlen adds < 1000000000 ->
  Forall (fun a => -2147483648 <= snd a <= 2147483647) adds ->
  exists rs l, add_tracks [] adds = Val (rs, l) /\ length rs = length adds /\
    NoDup (map tk_number l) /\ Forall (fun t => 1 <= tk_number t) l /\
    Forall2 (fun t a => same_track t (fst a) /\ (snd a = 0 \/ tk_number t = snd a)) l
            (map snd (filter fst (combine rs adds))).
Proof.
  intros adds Hl Hn. destruct (add_tracks_ok adds [] Hl Hn) as (rs & l & E & HL & [H1 H2] & H3 & _).
  { split; constructor. }
  exists rs, l. cbn [app] in *. repeat (split; [assumption|]). clear E HL.
  induction H3 as [|t a l0 m (n & -> & Hc) H3 IH]; constructor.
  - unfold same_track, tk_set_number. cbn. split; [reflexivity|]. tauto.
  - apply IH; [exact (NoDup_tail H1)|exact (Forall_inv_tail H2)].
Qed.
Print Assumptions C20_numbers_unique.

(* Exactly which additions are accepted; a refused one changes nothing. *)
Theorem C20_accepted_iff : forall l wrote t number, zlen l < 1000000000 ->
  -2147483648 <= number <= 2147483647 ->
  exists ok l', Tracks_AddTrack l wrote t number = Val (ok, l') /\
    (ok = true <-> wrote = false /\ 0 <= number <= 126 /\ (number = 0 \/ ~ In number (map tk_number l))) /\
    (ok = false -> l' = l).
Proof.
  intros l wrote t number Hl Hn. destruct (AddTrack_result l wrote t number Hl Hn) as [[E Hc]|(n & E & Hw & HNI & Hc)]; rewrite E.
  - exists false, l. split; [reflexivity|]. split; [|auto]. split; [discriminate|]. intros (-> & Hr & Hu).
    exfalso. destruct Hc as [H|[H|[H|[H1 H2]]]]; [discriminate|lia|lia|]. destruct Hu as [->|Hu]; [lia|tauto].
  - exists true, (l ++ [tk_set_number n t]). split; [reflexivity|]. split; [|discriminate]. split; auto. intros _.
    split; [exact Hw|]. destruct Hc as [[-> _]|[H ->]]; split; auto; lia.
Qed.
Print Assumptions C20_accepted_iff.

(* With at most 63 tracks every number is usable for frames (1 to 126). *)
Theorem C20_usable : forall adds rs l, zlen adds < 1000000000 ->
  Forall (fun a => -2147483648 <= snd a <= 2147483647) adds ->
  add_tracks [] adds = Val (rs, l) -> zlen l <= 63 ->
  Forall (fun t => 1 <= tk_number t <= 126) l.
Proof.
  intros adds rs l Hl Hn E H63. destruct (add_tracks_ok adds [] Hl Hn) as (rs' & l' & E' & _ & [_ H2] & _ & H4).
  { split; constructor. }
  rewrite E in E'. injection E' as <- ->. cbn [app] in *. specialize (H4 H63 (Forall_nil _)).
  rewrite Forall_forall in *. intros t Ht. specialize (H2 t Ht). specialize (H4 t Ht). cbn beta in *. lia.
Qed.
Print Assumptions C20_usable.

(* Beyond that the claim fails: with the numbers 64 to 126 taken (and 1 to 63
   free) an automatically numbered 64th track gets number 127, and every frame
   for it is refused. *)
Definition vp8 : track :=
  mkTrack (KVideo (mkVideo 0 0 0 0 0 0 0 0 (f64_of_Z 0) 480 0 0 640 None None None))
    (Some [86; 95; 86; 80; 56]) None None None 0 0 1 7 0 0 0 [].
Definition crowded_adds : list (track * Z) := map (fun n => (vp8, n)) (upto 64 63) ++ [(vp8, 0)].
Definition crowded : list track :=
  match add_tracks [] crowded_adds with Val (_, l) => l | UB => [] end.
Lemma crowded_ok : exists rs, add_tracks [] crowded_adds = Val (rs, crowded) /\
  forallb (fun b => b) rs = true /\ tk_number (last crowded vp8) = 127.
Proof. eexists. split; [vm_compute; reflexivity|]. split; vm_compute; reflexivity. Qed.

Theorem C20_usable_refuted : exists adds rs l,
  add_tracks [] adds = Val (rs, l) /\ In true rs /\ Forall (fun b => b = true) rs /\
  exists t, In t l /\ forall f, fr_track f = tk_number t -> IsValid f = false.
Proof.
  destruct crowded_ok as (rs & E & Hr & Hl). exists crowded_adds, rs, crowded. split; [exact E|].
  assert (HF : Forall (fun b => b = true) rs).
  { apply Forall_forall. rewrite forallb_forall in Hr. exact Hr. }
  split; [|split; [exact HF|]].
  - vm_compute in E. injection E as <-. left. reflexivity.
  - exists (last crowded vp8). split.
    + assert (Hne : crowded <> []) by (vm_compute; discriminate).
      rewrite (app_removelast_last vp8 Hne) at 2. apply in_or_app. right. left. reflexivity.
    + intros f Hf. rewrite Hl in Hf. unfold IsValid. destruct (zlen (fr_data f) =? 0); [reflexivity|].
      destruct (match fr_additional f with Some a => zlen a =? 0 | None => false end); [reflexivity|].
      replace ((fr_track f =? 0) || (fr_track f >? kMaxTrackNumber)) with true; [reflexivity|].
      rewrite Hf. reflexivity.
Qed.
Print Assumptions C20_usable_refuted.

(* automatic, explicit, clashing and out-of-range numbers *)
Example C20_ex : exists l,
  add_tracks [] [(vp8, 0); (vp8, 3); (vp8, 0); (vp8, 3); (vp8, 127); (vp8, -1)] =
    Val ([true; true; true; false; false; false], l) /\ map tk_number l = [1; 3; 4].
Proof. eexists. split; vm_compute; reflexivity. Qed.
