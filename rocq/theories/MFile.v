(* Model of mkvparser's MkvReader and mkvmuxer's MkvWriter over a file.
   Opening, closing and the destructor are not modelled. *)
From Verif Require Import Base SourceSpec MReader MWriter.

(* ---------- MkvReader ---------- *)
(* mkvreader.h:38-40; mr_file is None when nothing is open *)
Record mkv_reader := mkMR { mr_file : option file; mr_length : Z }.

(* The constructor for an open file and GetFileSize: mkvreader.cc:18-20, 49-78, for a file whose size
   can be told *)
Definition mkv_reader_on (data : list Z) : mkv_reader :=
  mkMR (Some (mkF data 0 seek_anywhere [])) (zlen data).

(* mkvreader.cc:87-98: status, total, available *)
Definition MkvReader_Length (r : mkv_reader) : Z * Z * Z :=
  match mr_file r with
  | None => (-1, 0, 0)
  | Some _ => (0, mr_length r, mr_length r)
  end.

(* mkvreader.cc:100-139: the bytes, or a status other than 0; the result of the seek is
   not looked at *)
Definition MkvReader_Read (offset len : Z) (r : mkv_reader) : (Z + list Z) * mkv_reader :=
  match mr_file r with
  | None => (inl (-1), r)
  | Some f =>
      if offset <? 0 then (inl (-1), r)
      else if len <? 0 then (inl (-1), r)
      else if len =? 0 then (inr [], r)
      else if offset >=? mr_length r then (inl (-1), r)
      else
        let '(_, f1) := fseek_set offset f in
        let '(bs, f2) := fread len f1 in
        (if zlen bs <? len then inl (-1) else inr bs, mkMR (Some f2) (mr_length r))
  end.

(* the answers to several calls; no code of its own (cf. mkvreader.cc:100-139) *)
Fixpoint mkv_reads (calls : list (Z * Z)) (r : mkv_reader) : list (Z + list Z) :=
  match calls with
  | [] => []
  | (offset, len) :: calls => let '(a, r1) := MkvReader_Read offset len r in a :: mkv_reads calls r1
  end.

(* ---------- MkvWriter ---------- *)
(* mkvwriter.h:43-44; o_room answers the future calls of fwrite: at most that many bytes
   are stored; after it all are *)
Record ofile := mkO { o_data : list Z; o_off : Z; o_room : list Z }.
Record mkv_writer := mkMW { mw_file : option ofile }.

(* fwrite(buffer, 1, length, file): mkvwriter.cc:35 *)
Definition fwrite (bs : list Z) (f : ofile) : Z * ofile :=
  let '(k, s) := match o_room f with
                 | [] => (zlen bs, [])
                 | c :: s => (Z.min (zlen bs) (Z.max 0 c), s)
                 end in
  (k, mkO (write_at (o_data f) (o_off f) (firstn (Z.to_nat k) bs)) (o_off f + k) s).

(* mkvwriter.cc:25-38 *)
Definition MkvWriter_Write (bs : list Z) (w : mkv_writer) : Z * mkv_writer :=
  match mw_file w with
  | None => (-1, w)
  | Some f =>
      if zlen bs =? 0 then (0, w)
      else let '(k, f1) := fwrite bs f in (if k =? zlen bs then 0 else -1, mkMW (Some f1))
  end.

(* mkvwriter.cc:64-73 *)
Definition MkvWriter_Position (w : mkv_writer) : Z :=
  match mw_file w with None => 0 | Some f => o_off f end.

(* mkvwriter.cc:75-92, for a file that can seek *)
Definition MkvWriter_SetPosition (p : Z) (w : mkv_writer) : Z * mkv_writer :=
  match mw_file w with
  | None => (-1, w)
  | Some f => if p <? 0 then (-1, w) else (0, mkMW (Some (mkO (o_data f) p (o_room f))))
  end.

(* Write(bytes) or Position(p): mkvmuxer.h:40-47 *)
Inductive wcall := WCWrite (bs : list Z) | WCSeek (p : Z).

(* the statuses of several calls; no code of their own (cf. mkvmuxer.h:40-47) *)
Fixpoint mkv_writes (calls : list wcall) (w : mkv_writer) : list Z * mkv_writer :=
  match calls with
  | [] => ([], w)
  | c :: calls =>
      let '(st, w1) := match c with WCWrite bs => MkvWriter_Write bs w | WCSeek p => MkvWriter_SetPosition p w end in
      let '(l, w2) := mkv_writes calls w1 in (st :: l, w2)
  end.
Fixpoint writer_calls (calls : list wcall) : W (list Z) :=
  match calls with
  | [] => ret []
  | c :: calls =>
      st <- match c with WCWrite bs => w_write bs | WCSeek p => w_seek p end ;;
      l <- writer_calls calls ;;
      ret (st :: l)
  end.
