(* Model of mkvparser Block parsing (mkvparser/mkvparser.cc:7641-8104).
   The target is LP64 (long is 64 bits, so LONG_MAX = LLONG_MAX).  Positions are
   unbounded integers here: the signed additions of positions inside one block
   do not overflow as long as the end of the block plus 2^57 is below 2^63, which
   the theorems assume.  Null pointers and allocation failure are not modelled.
   The asserts of the code are all implied by the checks beside them. *)
From Verif Require Import Base MParUtil.

(* Block::Frame: mkvparser.h:99-104 *)
Record bframe := mkBFrame { bf_pos : Z; bf_len : Z }.

(* Block: mkvparser.h:92-142 *)
Record block := mkBlock {
  bl_track : Z;
  bl_timecode : Z;
  bl_flags : Z;
  bl_frames : list bframe
}.

(* mkvparser.cc:7771-7788: one Xiph size.  Returns (frame_size, pos).  Every
   iteration consumes a byte before stop; the fuel is stop - pos. *)
Fixpoint xiph_size (fuel : nat) (r : reader) (pos stop frame_size : Z) : option (Z * Z) :=
  match fuel with
  | O => None
  | S fuel' =>
      if pos >=? stop then None
      else match r_byte r pos with
           | inl _ => None
           | inr val =>
               if val <? 255 then Some (frame_size + val, pos + 1)
               else xiph_size fuel' r (pos + 1) stop (frame_size + val)
           end
  end.

(* mkvparser.cc:7768-7804: n = frame_count - 1 sizes.  Returns (lengths, pos). *)
Fixpoint xiph_sizes (n : nat) (r : reader) (pos stop : Z) : option (list Z * Z) :=
  match n with
  | O => Some ([], pos)
  | S n' =>
      match xiph_size (Z.to_nat (stop - pos)) r pos stop 0 with
      | None => None
      | Some (frame_size, pos) =>
          if frame_size <=? 0 then None
          else match xiph_sizes n' r pos stop with
               | None => None
               | Some (ls, pos) => Some (frame_size :: ls, pos)
               end
      end
  end.

(* mkvparser.cc:7921-7976: n = frame_count - 1 delta sizes after the first
   frame.  `size` is the sum so far.  Returns (lengths, pos). *)
Fixpoint ebml_sizes (n : nat) (r : reader) (pos stop frame_size size : Z) : option (list Z * Z) :=
  match n with
  | O => Some ([], pos)
  | S n' =>
      if pos >=? stop then None
      else
        let '(delta_size_, len) := ReadUInt r pos in
        if delta_size_ <? 0 then None
        else if pos + len >? stop then None
        else
          let pos := pos + len in
          let bias := Z.shiftl 1 (7 * len - 1) - 1 in
          let frame_size := frame_size + (delta_size_ - bias) in
          if frame_size <=? 0 then None
          else if size >? LLONG_MAX - frame_size then None
          else match ebml_sizes n' r pos stop frame_size (size + frame_size) with
               | None => None
               | Some (ls, pos) => Some (frame_size :: ls, pos)
               end
  end.

(* mkvparser.cc:7809-7828, 7997-8007: the length of the last frame *)
Definition last_size (ls : list Z) (pos stop : Z) : option (list Z) :=
  let size := fold_right Z.add 0 ls in
  let total_size := stop - pos in
  if total_size <? size then None
  else
    let frame_size := total_size - size in
    if (frame_size >? LLONG_MAX) || (frame_size <=? 0) then None
    else Some (ls ++ [frame_size]).

(* mkvparser.cc:7830-7844, 8010-8021: assign positions.  Returns the frames when
   they end at stop. *)
Fixpoint place_frames (ls : list Z) (pos stop : Z) : option (list bframe) :=
  match ls with
  | [] => if pos =? stop then Some [] else None
  | l :: ls' =>
      if pos + l >? stop then None
      else match place_frames ls' (pos + l) stop with
           | None => None
           | Some fs => Some (mkBFrame pos l :: fs)
           end
  end.

(* mkvparser.cc:7761-7844: Xiph lacing *)
Definition parse_xiph (r : reader) (frame_count : Z) (pos stop : Z) : option (list bframe) :=
  match xiph_sizes (Z.to_nat (frame_count - 1)) r pos stop with
  | None => None
  | Some (ls, pos) =>
      if pos >? stop then None
      else match last_size ls pos stop with
           | None => None
           | Some ls => place_frames ls pos stop
           end
  end.

(* mkvparser.cc:7846-7878: fixed-size lacing *)
Definition parse_fixed (frame_count : Z) (pos stop : Z) : option (list bframe) :=
  if pos >=? stop then None
  else
    let total_size := stop - pos in
    if negb (Z.rem total_size frame_count =? 0) then None
    else
      let frame_size := Z.quot total_size frame_count in
      if (frame_size >? LLONG_MAX) || (frame_size <=? 0) then None
      else place_frames (repeat frame_size (Z.to_nat frame_count)) pos stop.

(* mkvparser.cc:7880-8022: EBML lacing.  With frame_count = 1 the loops are
   skipped but the size of the first frame is still read. *)
Definition parse_ebml (r : reader) (frame_count : Z) (pos stop : Z) : option (list bframe) :=
  if pos >=? stop then None
  else
    let '(frame_size, len) := ReadUInt r pos in
    if frame_size <=? 0 then None
    else if pos + len >? stop then None
    else
      let pos := pos + len in
      if pos + frame_size >? stop then None
      else if frame_count =? 1 then place_frames [frame_size] pos stop
      else
        match ebml_sizes (Z.to_nat (frame_count - 2)) r pos stop frame_size frame_size with
        | None => None
        | Some (ls, pos) =>
            if pos >? stop then None
            else match last_size (frame_size :: ls) pos stop with
                 | None => None
                 | Some ls => place_frames ls pos stop
                 end
        end.

(* limits.h, used in mkvparser.cc:7694-7697 *)
Definition SHRT_MIN : Z := -32768.
Definition SHRT_MAX : Z := 32767.

(* Block::Parse: mkvparser.cc:7653-8025.  None: E_FILE_FORMAT_INVALID. *)
Definition Block_Parse (r : reader) (m_start m_size : Z) : outcome (option block) :=
  let pos := m_start in
  let stop := m_start + m_size in
  let '(track, len) := ReadUInt r pos in
  if track <=? 0 then Val None
  else if pos + len >? stop then Val None
  else
    let pos := pos + len in
    if stop - pos <? 2 then Val None
    else
      match UnserializeInt r pos 2 with
      | UB => UB
      | Val (status, value) =>
          if negb (status =? 0) then Val None
          else if value <? SHRT_MIN then Val None
          else if value >? SHRT_MAX then Val None
          else
            let timecode := sint16 value in
            let pos := pos + 2 in
            if stop - pos <=? 0 then Val None
            else
              match r_byte r pos with
              | inl _ => Val None
              | inr flags =>
                  let lacing := Z.shiftr (Z.land flags 6) 1 in
                  let pos := pos + 1 in
                  let done fs :=
                    match fs with
                    | None => None
                    | Some fs => Some (mkBlock track timecode flags fs)
                    end in
                  if lacing =? 0 then
                    if pos >? stop then Val None
                    else
                      let frame_size := stop - pos in
                      if (frame_size >? LLONG_MAX) || (frame_size <=? 0) then Val None
                      else Val (Some (mkBlock track timecode flags [mkBFrame pos frame_size]))
                  else if pos >=? stop then Val None
                  else
                    match r_byte r pos with
                    | inl _ => Val None
                    | inr biased_count =>
                        let pos := pos + 1 in
                        if pos >? stop then Val None
                        else
                          let frame_count := biased_count + 1 in
                          if lacing =? 1 then Val (done (parse_xiph r frame_count pos stop))
                          else if lacing =? 2 then Val (done (parse_fixed frame_count pos stop))
                          else Val (done (parse_ebml r frame_count pos stop))
                    end
              end
      end.

(* Block::GetTimeCode: mkvparser.cc:8027-8042; tc0 is the cluster's timecode *)
Definition Block_GetTimeCode (b : block) (tc0 : Z) : Z :=
  if (tc0 <? 0) || (LLONG_MAX - tc0 <? bl_timecode b) then -1 else tc0 + bl_timecode b.

(* Block::GetTime: mkvparser.cc:8044-8063.  LLONG_MAX / tc truncates toward zero
   (for a negative tc the quotient is negative and every scale exceeds it). *)
Definition Block_GetTime (b : block) (tc0 scale : Z) : Z :=
  let tc := Block_GetTimeCode b tc0 in
  if negb (tc =? 0) && (scale >? Z.quot LLONG_MAX tc) then -1 else tc * scale.

(* Block::IsKey, SetKey, IsInvisible: mkvparser.cc:8067-8078 *)
Definition Block_IsKey (b : block) : bool := negb (Z.land (bl_flags b) 128 =? 0).
Definition Block_SetKey (b : block) (key : bool) : block :=
  mkBlock (bl_track b) (bl_timecode b)
          (if key then Z.lor (bl_flags b) 128 else Z.land (bl_flags b) 127) (bl_frames b).
Definition Block_IsInvisible (b : block) : bool := negb (Z.land (bl_flags b) 8 =? 0).

(* Block::Frame::Read: mkvparser.cc:8098-8104 *)
Definition Frame_Read (r : reader) (f : bframe) : Z + list Z := r_read r (bf_pos f) (bf_len f).
