(* Model of going through the blocks of one track: mkvparser's Track and VideoTrack,
   GetFirst, GetNext and Seek (mkvparser/mkvparser.cc:4664-4911, 5458-5549).
   An entry is named by the index of its cluster and its index in the cluster.
   Blocks are parsed on demand: each function also returns the segment with the
   clusters as the calls left them.  A failing assert is undefined behaviour.
   Not modelled: preloaded clusters, that is all clusters have an index. *)
From Verif Require Import Base MParUtil MParBlock MParMeta MParTrack MParCluster MParSegment.

(* what the out parameter points to: an entry, the track's end-of-stream entry
   (mkvparser.h:385, mkvparser.cc:4633), or nothing *)
Inductive walk_entry :=
| WE_entry (ci ei : Z) (e : bentry)
| WE_eos
| WE_null.

(* m_clusters[i] of a loaded segment, None: the end-of-stream cluster that
   Segment::GetFirst and GetNext return then: mkvparser.cc:2501-2509, 2525-2550 *)
Definition cluster_at (s : pseg) (i : Z) : option cluster :=
  if i <? 0 then None else nth_error (pg_clusters s) (Z.to_nat i).
(* the object m_clusters[i] points to has changed, e.g. mkvparser.cc:4683 *)
Definition set_cluster (s : pseg) (i : Z) (c : cluster) : pseg :=
  pg_set_clusters (firstn (Z.to_nat i) (pg_clusters s) ++ c :: skipn (S (Z.to_nat i)) (pg_clusters s)) (pg_unknown s) s.

(* Segment::DoneParsing: mkvparser.cc:2481-2499 *)
Definition DoneParsing (r : reader) (s : pseg) : bool :=
  if pg_size s <? 0 then
    if r_total r <? 0 then false else pg_pos s >=? r_total r
  else pg_pos s >=? pg_start s + pg_size s.

(* a cluster was the last loaded one: mkvparser.cc:4673-4681, 4773-4796 *)
Definition at_end (r : reader) (s : pseg) : Z * walk_entry * pseg :=
  if DoneParsing r s then (1, WE_eos, s) else (E_BUFFER_NOT_FULL, WE_null, s).

(* Track::VetEntry and VideoTrack::VetEntry for an entry of the track:
   mkvparser.cc:4817-4832, 5458-5460 *)
Definition vets (t : p_track) (e : bentry) : bool :=
  match pt_kind t with PVideo _ => Block_IsKey (en_block e) | _ => true end.
(* the comparison of the track numbers, mkvparser.cc:4696-4698, 4756-4757 *)
Definition on_track (t : p_track) (e : bentry) : bool := bl_track (en_block e) =? ti_number (pt_info t).

(* The loops over the entries of a cluster, from the entry e with index ei on:
   mkvparser.cc:4693-4714, 4751-4765.  Returns the status and the first entry that
   is ok. *)
Fixpoint scan (fuel : nat) (r : reader) (ok : bentry -> bool) (c : cluster) (ei : Z) (e : bentry)
  : outcome (Z * option (Z * bentry) * cluster) :=
  match fuel with
  | O => UB
  | S f =>
      if ok e then Val (0, Some (ei, e), c)
      else
        match Cluster_GetNext r c ei with
        | None => UB
        | Some UB => UB
        | Some (Val (status, o, c)) =>
            if status <? 0 then Val (status, None, c)
            else match o with
                 | None => Val (0, None, c)
                 | Some e => scan f r ok c (ei + 1) e
                 end
        end
  end.
(* a cluster has fewer entries than bytes; the loops of mkvparser.cc:4693, 4751 *)
Definition scan_fuel (r : reader) (c : cluster) : nat := S (Z.to_nat (r_avail r - cl_start c + 2)).

(* Track::GetFirst from cluster ci on: mkvparser.cc:4667-4728.  When a call for the
   next entry fails, pBlockEntry keeps the entry examined last; the model has none. *)
Fixpoint get_first (fuel : nat) (r : reader) (s : pseg) (t : p_track) (ci i : Z) : outcome (Z * walk_entry * pseg) :=
  match fuel with
  | O => UB
  | S f =>
      match cluster_at s ci with
      | None => Val (at_end r s)
      | Some c =>
          match Cluster_GetFirst r c with
          | None => UB
          | Some UB => UB
          | Some (Val (status, o, c)) =>
              let s := set_cluster s ci c in
              if status <? 0 then Val (status, WE_null, s)
              else match o with
                   | None => get_first f r s t (ci + 1) i
                   | Some e =>
                       match scan (scan_fuel r c) r (fun e => on_track t e && vets t e) c 0 e with
                       | UB => UB
                       | Val (status, found, c) =>
                           let s := set_cluster s ci c in
                           if status <? 0 then Val (status, WE_null, s)
                           else match found with
                                | Some (ei, e) => Val (0, WE_entry ci ei e, s)
                                | None =>
                                    let i := i + 1 in
                                    if i >=? 100 then Val (1, WE_eos, s)
                                    else get_first f r s t (ci + 1) i
                                end
                       end
                   end
          end
      end
  end.
(* Track::GetFirst: mkvparser.cc:4664-4729 *)
Definition Track_GetFirst (r : reader) (s : pseg) (t : p_track) : outcome (Z * walk_entry * pseg) :=
  get_first (S (length (pg_clusters s))) r s t 0 0.

(* Track::GetNext, the loop: mkvparser.cc:4750-4806; ci is the cluster, o the next
   entry in it *)
Fixpoint get_next (fuel : nat) (r : reader) (s : pseg) (t : p_track) (ci : Z) (o : option (Z * bentry)) (i : Z)
  : outcome (Z * walk_entry * pseg) :=
  match fuel with
  | O => UB
  | S f =>
      match cluster_at s ci with
      | None => UB
      | Some c =>
          match (match o with
                 | None => Val (0, None, c)
                 | Some (ei, e) => scan (scan_fuel r c) r (on_track t) c ei e
                 end) with
          | UB => UB
          | Val (status, found, c) =>
              let s := set_cluster s ci c in
              if status <? 0 then Val (status, WE_null, s)
              else match found with
                   | Some (ei, e) => Val (0, WE_entry ci ei e, s)
                   | None =>
                       match cluster_at s (ci + 1) with
                       | None => Val (at_end r s)
                       | Some c =>
                           match Cluster_GetFirst r c with
                           | None => UB
                           | Some UB => UB
                           | Some (Val (status, o, c)) =>
                               let s := set_cluster s (ci + 1) c in
                               if status <? 0 then Val (status, WE_null, s)
                               else match o with
                                    | None => get_next f r s t (ci + 1) None i
                                    | Some e =>
                                        let i := i + 1 in
                                        if i >=? 100 then Val (1, WE_eos, s)
                                        else get_next f r s t (ci + 1) (Some (0, e)) i
                                    end
                           end
                       end
                   end
          end
      end
  end.
(* Track::GetNext: mkvparser.cc:4731-4815; the entry ei of cluster ci *)
Definition Track_GetNext (r : reader) (s : pseg) (t : p_track) (ci ei : Z) : outcome (Z * walk_entry * pseg) :=
  match cluster_at s ci with
  | None => UB
  | Some c =>
      match entry_at c ei with
      | None => UB
      | Some e =>
          if negb (on_track t e) then UB                                   (* assert *)
          else
            match Cluster_GetNext r c ei with
            | None => UB
            | Some UB => UB
            | Some (Val (status, o, c)) =>
                let s := set_cluster s ci c in
                if status <? 0 then Val (status, WE_null, s)
                else get_next (S (length (pg_clusters s))) r s t ci
                       (match o with None => None | Some e => Some (ei + 1, e) end) 0
            end
      end
  end.

(* ---------- seeking ---------- *)

(* m_pSegment->GetInfo()->GetTimeCodeScale() with its asserts, mkvparser.cc:7111-7115, 8050-8054 *)
Definition scale_of (s : pseg) : outcome Z :=
  match pg_info s with
  | None => UB
  | Some i => if p_scale i <? 1 then UB else Val (p_scale i)
  end.

(* Cluster::GetTime: mkvparser.cc:7105-7120, a product of signed numbers *)
Definition Cluster_GetTime (r : reader) (scale : Z) (c : cluster) : outcome (Z * cluster) :=
  match Cluster_GetTimeCode r c with
  | None => UB
  | Some UB => UB
  | Some (Val (tc, c)) =>
      if tc <? 0 then Val (tc, c)
      else if tc * scale >? LLONG_MAX then UB
      else Val (tc * scale, c)
  end.
(* ... of m_clusters[i], e.g. mkvparser.cc:4882 *)
Definition time_at (r : reader) (s : pseg) (i : Z) : outcome (Z * pseg) :=
  match scale_of s with
  | UB => UB
  | Val scale =>
      match cluster_at s i with
      | None => UB
      | Some c =>
          match Cluster_GetTime r scale c with
          | UB => UB
          | Val (t, c) => Val (t, set_cluster s i c)
          end
      end
  end.

(* the binary search: mkvparser.cc:4868-4890, 5496-5518 *)
Fixpoint seek_search (fuel : nat) (r : reader) (s : pseg) (time lo hi : Z) : outcome (Z * pseg) :=
  match fuel with
  | O => UB
  | S f =>
      if lo <? hi then
        let mid := lo + (hi - lo) / 2 in
        match time_at r s mid with
        | UB => UB
        | Val (t, s) =>
            if t <=? time then seek_search f r s time (mid + 1) hi
            else seek_search f r s time lo mid
        end
      else Val (lo, s)
  end.

(* Cluster::GetEntry(pTrack, time_ns), the loop: mkvparser.cc:7450-7500.  None: the
   track's end-of-stream entry.  A failing Parse violates an assert. *)
Fixpoint get_entry (fuel : nat) (r : reader) (scale : Z) (t : p_track) (time : Z) (c : cluster) (index : Z)
  (result : option (Z * bentry)) : outcome (option (Z * bentry) * cluster) :=
  match fuel with
  | O => UB
  | S f =>
      match (if index >=? entry_count c then
               match Cluster_Parse r c with
               | None => UB
               | Some UB => UB
               | Some (Val (status, c)) =>
                   if status <? 0 then UB
                   else if status >? 0 then Val (true, c)
                   else if index >=? entry_count c then UB
                   else Val (false, c)
               end
             else Val (false, c)) with
      | UB => UB
      | Val (true, c) => Val (result, c)
      | Val (false, c) =>
          match entry_at c index with
          | None => UB
          | Some e =>
              let ns := Block_GetTime (en_block e) (cl_timecode c) scale in
              if negb (on_track t e) then get_entry f r scale t time c (index + 1) result
              else if vets t e then
                if time <? 0 then Val (Some (index, e), c)
                else if ns >? time then Val (result, c)
                else get_entry f r scale t time c (index + 1) (Some (index, e))
              else if (time >=? 0) && (ns >? time) then Val (result, c)
              else get_entry f r scale t time c (index + 1) result
          end
      end
  end.

(* The loops that go back cluster by cluster: mkvparser.cc:4896-4907, 5524-5542;
   time < 0 stands for the first entry of the track (mkvparser.h:999). *)
Fixpoint seek_back (fuel : nat) (r : reader) (s : pseg) (t : p_track) (time want i lo : Z) : outcome (Z * walk_entry * pseg) :=
  match fuel with
  | O => UB
  | S f =>
      if lo >? i then
        let lo := lo - 1 in
        match time_at r s lo with
        | UB => UB
        | Val (ct, s) =>
            if ct >? time then UB                                          (* assert *)
            else
              match scale_of s, cluster_at s lo with
              | Val scale, Some c =>
                  match get_entry (scan_fuel r c) r scale t want c 0 None with
                  | UB => UB
                  | Val (o, c) =>
                      let s := set_cluster s lo c in
                      match o with
                      | Some (ei, e) => Val (0, WE_entry lo ei e, s)
                      | None => seek_back f r s t time want i lo
                      end
                  end
              | _, _ => UB
              end
        end
      else Val (0, WE_eos, s)
  end.

(* Track::Seek and VideoTrack::Seek: mkvparser.cc:4834-4911, 5462-5549.  They differ
   in the entry they take from a cluster: its first one of the track, or the last
   key frame not after the time.  VideoTrack::Seek's first step back is the same as
   the others. *)
Definition Track_Seek (r : reader) (s : pseg) (t : p_track) (time : Z) : outcome (Z * walk_entry * pseg) :=
  match Track_GetFirst r s t with
  | UB => UB
  | Val (status, w, s) =>
      if status <? 0 then Val (status, w, s)
      else
        match w with
        | WE_null => UB                                                    (* assert *)
        | WE_eos => Val (0, WE_eos, s)
        | WE_entry ci ei e =>
            match scale_of s, cluster_at s ci with
            | Val scale, Some c =>
                if cl_timecode c <? 0 then UB                              (* assert of GetTimeCode *)
                else if time <=? Block_GetTime (en_block e) (cl_timecode c) scale then Val (0, WE_entry ci ei e, s)
                else
                  match time_at r s ci with
                  | UB => UB
                  | Val (ct, s) =>
                      if ct >? time then UB                                (* assert *)
                      else
                        let count := zlen (pg_clusters s) in
                        match seek_search (S (length (pg_clusters s))) r s time ci count with
                        | UB => UB
                        | Val (lo, s) =>
                            if lo <=? ci then UB                           (* assert *)
                            else seek_back (S (length (pg_clusters s))) r s t time
                                   (match pt_kind t with PVideo _ => time | _ => -1 end) ci lo
                        end
                  end
            | _, _ => UB
            end
        end
  end.
