(* What the muxer must write for one frame (RFC 9559, 5.1.3): a SimpleBlock or a
   BlockGroup whose Block carries exactly the frame. *)
From Verif Require Import Base EbmlSpec LacingSpec MMuxBlock Ids.

(* the frame's API-level well-formedness; sizes below 2 GiB *)
Definition frame_ok (f : frame) : Prop :=
  bytes (fr_data f) /\ 1 <= zlen (fr_data f) <= INT_MAX - 4 /\
  match fr_additional f with None => True | Some a => bytes a /\ 1 <= zlen a < 2 ^ 32 end /\
  is_u64 (fr_add_id f) /\ is_u64 (fr_duration f) /\
  1 <= fr_track f <= 126 /\ 0 <= fr_timestamp f < 2 ^ 63 /\
  is_s64 (fr_discard f) /\ is_s64 (fr_ref f).

(* the timecode of the frame relative to its cluster, in timecode units *)
Definition frame_rel (f : frame) (cluster_timecode scale : Z) : Z :=
  fr_timestamp f / scale - cluster_timecode.

(* A plain SimpleBlock: unlaced, flag bit 7 = keyframe. *)
Definition is_simple_block (f : frame) (rel : Z) (bs : list Z) : Prop :=
  exists content, is_element kMkvSimpleBlock content bs /\
    block_content (fr_track f) rel (if fr_is_key f then 128 else 0) LNone [fr_data f] content.

(* an optional child element: present exactly when `present`, then with the
   given ID and a content satisfying P *)
Definition opt_child (present : bool) (id : Z) (P : list Z -> Prop) (els : list (Z * list Z)) : Prop :=
  if present then exists c, P c /\ els = [(id, c)] else els = [].

(* BlockAdditions{BlockMore{BlockAddID, BlockAdditional}} *)
Definition is_additions (add_id : Z) (data : list Z) (content : list Z) : Prop :=
  exists more idp, is_element kMkvBlockMore more content /\
    uint_payload add_id idp /\
    is_elements [(kMkvBlockAddID, idp); (kMkvBlockAdditional, data)] more.

(* A BlockGroup: the unlaced Block with no flags, then the additional data, the
   discard padding if non-zero, a reference if the frame is not a keyframe and
   the duration if it is at least one timecode unit. *)
Definition is_block_group (f : frame) (rel scale : Z) (bs : list Z) : Prop :=
  exists payload blk adds disc refs dur,
    is_element kMkvBlockGroup payload bs /\
    block_content (fr_track f) rel 0 LNone [fr_data f] blk /\
    match fr_additional f with
    | None => adds = []
    | Some a => exists c, is_additions (fr_add_id f) a c /\ adds = [(kMkvBlockAdditions, c)]
    end /\
    opt_child (negb (fr_discard f =? 0)) kMkvDiscardPadding (sint_payload (fr_discard f)) disc /\
    opt_child (negb (fr_is_key f)) kMkvReferenceBlock
              (uint_payload ((fr_ref f mod 2 ^ 64) / scale)) refs /\
    opt_child (0 <? fr_duration f / scale) kMkvBlockDuration
              (uint_payload (fr_duration f / scale)) dur /\
    is_elements ((kMkvBlock, blk) :: adds ++ disc ++ refs ++ dur) payload.
