(* Metadata written by mkvmuxer and read back by mkvparser. *)
From Coq Require Import ZifyBool ZifyNat Floats.SpecFloat.
From Verif Require Import Base Ids MFloat MWriter MMuxUtil MMuxMeta MParUtil MParMeta EbmlSpec WriterSpec ReaderSpec MetaSpec ReadBackSpec.
From Verif Require Import PMeta PParUtil PParMeta PParMeta2 PParDur PropMeta.

(* ---------- chapters ---------- *)

(* The chapters are reported in their order, in one edition, with the times,
   strings and displays they were written with, and with [sign_extended] UIDs. *)
Theorem C27_chapters_read_back : forall l s s', good s -> representable [chapters_tree l] -> Forall readable_chapter l ->
  Chapters_Write l s = Val (true, s') ->
  exists bs, advanced s bs s' /\
    forall r pos, serves r pos bs -> pos + zlen bs <= LLONG_MAX ->
      exists start size, element_at r pos kMkvChapters start size /\ start + size = pos + zlen bs /\
        Chapters_Parse r start size = Val (0, read_chapters l).
Proof.
  intros l s s' Hg Hr Hl HW. destruct (C11_chapters l Hr) as [size H]. destruct (H s Hg) as (b & s2 & E & Hok & _).
  rewrite HW in E. injection E as <- <-. destruct (Hok eq_refl) as (Hv & bs & He & _ & Ha).
  exists bs. split; [exact Ha|]. intros r pos Hs HL. exact (chapters_read r l pos bs Hr Hv Hl He Hs HL).
Qed.
Print Assumptions C27_chapters_read_back.

(* which UIDs survive: those of eight bytes, and those whose most significant bit
   in the shortest encoding is not set *)
Theorem C27_uid_survives_iff : forall uid, 0 <= uid < 2 ^ 64 ->
  (sign_extended uid = uid <-> 2 ^ 56 <= uid \/ uid < 2 ^ (8 * octets uid - 1)).
Proof.
  intros uid Hu. unfold sign_extended. destruct (Z.ltb_spec uid (2 ^ (8 * octets uid - 1))); [tauto|].
  assert (H8 : 2 ^ 56 <= uid <-> octets uid = 8).
  { unfold octets. repeat match goal with |- context [if ?a <? ?b then _ else _] => destruct (Z.ltb_spec a b) end; lia. }
  assert (R : 1 <= octets uid <= 8) by (unfold octets; repeat match goal with |- context [if ?a <? ?b then _ else _] => destruct (Z.ltb_spec a b) end; lia).
  split; intros H1.
  - left. apply H8. destruct (Z.eq_dec (octets uid) 8); [assumption|]. exfalso. assert (2 ^ (8 * octets uid) <= 2 ^ 56) by (apply Z.pow_le_mono_r; lia). lia.
  - destruct H1 as [H1|H1]; [|lia]. apply H8 in H1. rewrite H1. lia.
Qed.
Print Assumptions C27_uid_survives_iff.

(* not all do: among them half of those AddChapter generates (seven bytes) *)
Theorem C27_chapter_uids_survive_refuted : exists rands s' start size a,
  let c := mkChapter (Some [97]) 0 1000 (MakeUID rands) [] in
  Chapters_Write [c] (mkW [] 0 true []) = Val (true, s') /\
  element_at (file_reader (w_file s')) 0 kMkvChapters start size /\
  Chapters_Parse (file_reader (w_file s')) start size = Val (0, [[a]]) /\ pa_uid a <> ch_uid c.
Proof.
  exists [2048; 0; 0; 0; 0; 0; 0]. eexists _, _, _, _. cbv zeta. split; [vm_compute; reflexivity|].
  split; [vm_compute; reflexivity|]. split; [vm_compute; reflexivity|]. vm_compute. discriminate.
Qed.
Print Assumptions C27_chapter_uids_survive_refuted.

Definition ex_chapters : list chapter :=
  [mkChapter (Some [97]) 0 1000 7 [mkDisplay (Some [72; 105]) (Some [101; 110]) None; mkDisplay (Some []) None None];
   mkChapter (Some [98]) 1000 2500 (2 ^ 63 + 5) []].
Example C27_ex : representable [chapters_tree ex_chapters] /\ Forall readable_chapter ex_chapters /\
  good (mkW [] 0 true []) /\ (exists s', Chapters_Write ex_chapters (mkW [] 0 true []) = Val (true, s')) /\
  map sign_extended [7; 2 ^ 63 + 5; 128] = [7; 2 ^ 63 + 5; 2 ^ 64 - 128].
Proof.
  split; [rep|]. split; [repeat constructor; vm_compute; (reflexivity || discriminate)|].
  split; [split; [vm_compute; split; discriminate|constructor]|]. split; [eexists; vm_compute; reflexivity|reflexivity].
Qed.

(* ---------- tags, segment information, EBML header ---------- *)

Theorem C51_tags_read_back : forall l s s', good s -> representable [tags_tree l] -> Forall readable_tag l ->
  Tags_Write l s = Val (true, s') ->
  exists bs, advanced s bs s' /\
    forall r pos, serves r pos bs -> pos + zlen bs <= LLONG_MAX ->
      exists start size, element_at r pos kMkvTags start size /\ start + size = pos + zlen bs /\
        Tags_Parse r start size = Val (0, read_tags l).
Proof.
  intros l s s' Hg Hr Hl HW. destruct (C11_tags l Hr) as [size H]. destruct (H s Hg) as (b & s2 & E & Hok & _).
  rewrite HW in E. injection E as <- <-. destruct (Hok eq_refl) as (Hv & bs & He & _ & Ha).
  exists bs. split; [exact Ha|]. intros r pos Hs HL. exact (tags_read r l pos bs Hv Hl He Hs HL).
Qed.
Print Assumptions C51_tags_read_back.

(* the duration as the nearest binary32 number *)
Theorem C51_info_read_back : forall i s i' s', good s -> representable [info_tree i] -> readable_info i ->
  SegmentInfo_Write i s = Val (true, i', s') ->
  exists bs, advanced s bs s' /\
    forall r pos, serves r pos bs -> pos + zlen bs <= LLONG_MAX ->
      exists start size, element_at r pos kMkvInfo start size /\ start + size = pos + zlen bs /\
        SegmentInfo_Parse r start size = Val (0, read_info i).
Proof.
  intros i s i' s' Hg Hr Hl HW. destruct (C11_info i Hr) as [size H]. destruct (H s Hg) as (b & s2 & E & Hok & _).
  unfold bind, ret in E. rewrite HW in E. cbn [fst] in E. injection E as <- <-. destruct (Hok eq_refl) as (Hv & bs & He & _ & Ha).
  exists bs. split; [exact Ha|]. intros r pos Hs HL. exact (info_read r i pos bs Hl He Hs HL).
Qed.
Print Assumptions C51_info_read_back.

(* the header at the start of a file or a stream of unknown length *)
Theorem C51_header_read_back : forall version doc_type s s', good s -> representable [ebml_header_tree version doc_type] ->
  1 <= version < 2 ^ 63 -> doc_type <> [] -> zlen doc_type <= 20000000 ->
  WriteEbmlHeader version doc_type s = Val (true, s') ->
  exists bs, advanced s bs s' /\
    forall r, wf_reader r -> serves r 0 bs -> zlen bs <= r_avail r -> r_total r = -1 \/ r_avail r <= r_total r ->
      EBMLHeader_Parse r = Val (0, zlen bs, read_header version doc_type).
Proof.
  intros v dt s s' Hg Hr Hv0 Hne Hdt HW. destruct (C11_ebml_header v dt Hr) as [size H]. destruct (H s Hg) as (b & s2 & E & Hok & _).
  rewrite HW in E. injection E as <- <-. destruct (Hok eq_refl) as (Hv & bs & He & _ & Ha).
  exists bs. split; [exact Ha|]. intros r Hwf Hs HA HT. assert (HL : r_avail r <= LLONG_MAX) by (destruct Hwf as (_ & HW1 & HW2 & _); lia). exact (header_read r v dt bs Hv0 Hne Hdt He Hs HL HA HT).
Qed.
Print Assumptions C51_header_read_back.

Definition ex_tags : list tag := [[mkSTag (Some [84]) (Some [104; 105]); mkSTag (Some [65]) (Some [])]; []].
Definition ex_info : segment_info :=
  mkSI (f64_of_Z 5000) (Some [108]) 1000000 (Some [119]) 0 0.
Example C51_ex : representable [tags_tree ex_tags] /\ Forall readable_tag ex_tags /\
  (exists s', Tags_Write ex_tags (mkW [] 0 true []) = Val (true, s')) /\
  representable [info_tree ex_info] /\ readable_info ex_info /\
  (exists i s', SegmentInfo_Write ex_info (mkW [] 0 true []) = Val (true, i, s')) /\
  representable [ebml_header_tree 4 [119; 101; 98; 109]] /\
  (exists s', WriteEbmlHeader 4 [119; 101; 98; 109] (mkW [] 0 true []) = Val (true, s')).
Proof.
  split; [rep|]. split; [repeat constructor; vm_compute; (reflexivity || discriminate)|].
  split; [eexists; vm_compute; reflexivity|]. split; [rep|]. split.
  { unfold readable_info. split; [vm_compute; split; [discriminate|reflexivity]|]. split; [vm_compute; discriminate|]. split; [vm_compute; discriminate|].
    split; [intros _; right; do 2 eexists; vm_compute; reflexivity|vm_compute; reflexivity]. }
  split; [do 2 eexists; vm_compute; reflexivity|]. split; [rep|]. eexists; vm_compute; reflexivity.
Qed.

(* ---------- the parsers always return ---------- *)

(* for any data: a well-formed source of at most 2^62 bytes whose failing reads
   report negative statuses *)
Definition bounded_source (r : reader) : Prop :=
  wf_reader r /\ r_avail r <= 2 ^ 62 /\ forall pos len st, r_read r pos len = inl st -> st < 0.

Theorem C52_metadata_parsers_return : forall r, bounded_source r ->
  (exists x, EBMLHeader_Parse r = Val x) /\
  forall pos size, 0 <= pos -> pos + size <= LLONG_MAX ->
    (exists x, SegmentInfo_Parse r pos size = Val x) /\ (exists x, Chapters_Parse r pos size = Val x) /\
    (exists x, Tags_Parse r pos size = Val x).
Proof.
  intros r (Hwf & Hav & Hneg). split; [apply EBMLHeader_returns; auto|]. intros pos size Hp HL.
  split; [apply SegmentInfo_returns; auto|]. split; [apply Chapters_returns; auto|]. apply Tags_returns; auto.
Qed.
Print Assumptions C52_metadata_parsers_return.

Example C52_ex : bounded_source (file_reader [0x45; 0xB9; 0xFF; 1; 2; 3]).
Proof.
  split; [|split; [vm_compute; discriminate|]].
  - split; [repeat constructor; unfold is_byte; lia|]. vm_compute. repeat split; discriminate.
  - intros pos len st. unfold r_read, file_reader. cbn [r_err r_avail r_short]. change (negb (0 =? 0)) with false. cbn iota.
    destruct (_ || _); [intros E; injection E as <-; lia|]. destruct (len =? 0); [discriminate|]. destruct (_ <=? _); [discriminate|]. intros E; injection E as <-; lia.
Qed.

(* ---------- the reported duration ---------- *)

(* Whatever the file, once its segment information is accepted the duration in
   nanoseconds can be computed and is -1 (unknown) or not negative -- unless
   duration times scale is exactly 2^63. *)
Theorem C53_duration_defined : forall r start size i, SegmentInfo_Parse r start size = Val (0, i) ->
  f64_mul (p_duration i) (f64_of_Z (p_scale i)) <> f64_of_Z (2 ^ 63) ->
  exists d, GetDuration i = Val d /\ -1 <= d < 2 ^ 63.
Proof. exact duration_defined. Qed.
Print Assumptions C53_duration_defined.

(* That product passes the check against LLONG_MAX, which as a double is 2^63, and
   does not fit into a long long: TimecodeScale 1, Duration 2^63. *)
Definition ex_duration : list Z := [0x2A; 0xD7; 0xB1; 0x81; 1; 0x44; 0x89; 0x84; 0x5F; 0; 0; 0].
Theorem C53_duration_always_defined_refuted : exists r size i,
  wf_reader r /\ SegmentInfo_Parse r 0 size = Val (0, i) /\ GetDuration i = UB.
Proof.
  exists (file_reader ex_duration), 12, (mkPI 1 (f64_of_Z (2 ^ 63)) None None None). unfold ex_duration. split; [|split; vm_compute; reflexivity].
  split; [repeat constructor; unfold is_byte; lia|]. vm_compute. repeat split; discriminate.
Qed.
Print Assumptions C53_duration_always_defined_refuted.

(* TimecodeScale 1000000, Duration 2^12 *)
Example C53_ex : let i := mkPI 1000000 (f64_of_Z 4096) None None None in
  SegmentInfo_Parse (file_reader [0x2A; 0xD7; 0xB1; 0x83; 15; 66; 64; 0x44; 0x89; 0x84; 0x45; 0x80; 0; 0]) 0 14 = Val (0, i) /\
  f64_mul (p_duration i) (f64_of_Z (p_scale i)) <> f64_of_Z (2 ^ 63) /\ GetDuration i = Val 4096000000.
Proof. cbv zeta. split; [vm_compute; reflexivity|]. split; [vm_compute; discriminate|vm_compute; reflexivity]. Qed.
