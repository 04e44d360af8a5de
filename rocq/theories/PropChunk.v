(* Writing in chunks: which files there are, and what is in them. *)
From Coq Require Import ZifyBool ZifyNat.
From Verif Require Import Base MWriter MFile ChunkSpec MChunk PChunk PChunk2.

(* Whatever is called in whatever order, whichever files cannot be opened: no file is
   opened, and so emptied, twice.  (The count of chunks is an int.) *)
Theorem C71_no_file_twice : forall evs, zlen evs < 2 ^ 31 -> NoDup (map fst (ck_disk (run evs ck_init))).
Proof. intros evs H. destruct (inv_run evs ck_init inv_init) as (ND & _); [exact H|exact ND]. Qed.
Print Assumptions C71_no_file_twice.

Definition start (base : list Z) : list event := [Inits; SetsChunking true base true true].
Lemma started : forall base, sess base 0 (fun _ => ([], 0)) ([], 0) true (run (start base) ck_init).
Proof. intros base. change (run (start base) ck_init) with (step (step ck_init Inits) (SetsChunking true base true true)). apply sess_begin; reflexivity. Qed.
Lemma run_app : forall a b s, run (a ++ b) s = run b (run a s). Proof. intros a b s. apply fold_left_app. Qed.

(* At any moment after chunking has been turned on, when all files could be opened:
   the k-th file holds exactly what has been written for the k-th cluster, the header
   file what has been written for the headers, and there are no other files. *)
Theorem C71_at_any_time : forall base evs, Forall muxing evs -> zlen evs < 2 ^ 31 - 1 ->
  let files := ck_disk (run (start base ++ evs) ck_init) in
  (forall k, (k < Nat.max 1 (clusters evs))%nat ->
     exists n, numbered base ext_chk (Z.of_nat k) n /\ look n files = Some (play (for_cluster 0 k evs))) /\
  look (base ++ [46] ++ ext_hdr) files = Some (play (for_header evs)) /\
  length files = S (Nat.max 1 (clusters evs)).
Proof.
  intros base evs HM HL files. unfold files. rewrite run_app.
  pose proof (sess_run base evs 0 _ _ _ _ HM ltac:(cbn [Z.of_nat]; lia) (started base)) as S. cbn [Nat.add] in S.
  assert (HC : (clusters evs <= length evs)%nat). { clear. induction evs as [|[] evs IH]; cbn [clusters length]; lia. }
  split; [|split; [exact (ss_header _ _ _ _ _ _ S)|exact (ss_len _ _ _ _ _ _ S)]].
  intros k Hk. exists (chk base k). split; [apply chunk_numbered; unfold small, zlen in *; lia|]. apply (ss_look _ _ _ _ _ _ S). lia.
Qed.
Print Assumptions C71_at_any_time.

Lemma header_app : forall a b, for_header (a ++ b) = for_header a ++ (if still a then for_header b else []).
Proof.
  induction a as [|e a IH]; intros b; [reflexivity|]. destruct e as [| | | |c| |live| |]; cbn [app for_header still]; try apply IH.
  - rewrite IH. reflexivity.
  - destruct live; [reflexivity|apply IH].
Qed.

(* At the end: the same, Finalize adds what it writes to the header file, puts the
   cues into a file of their own, and changes no chunk. *)
Theorem C71_when_finished : forall base evs tail, Forall muxing evs -> Forall closing tail -> zlen evs < 2 ^ 31 - 1 ->
  let files := ck_disk (run (start base ++ evs ++ [Finalizes true true] ++ tail ++ [Finalized]) ck_init) in
  let n := Nat.max 1 (clusters evs) in
  (forall k, (k < n)%nat ->
     exists f, numbered base ext_chk (Z.of_nat k) f /\ look f files = Some (play (for_cluster 0 k evs))) /\
  look (base ++ [46] ++ ext_hdr) files = Some (play (for_header (evs ++ tail))) /\
  (exists f, numbered base ext_cues (Z.of_nat n) f /\ look f files = Some (play (for_cues tail))) /\
  length files = S (S n).
Proof.
  intros base evs tail HM HT HL files n. unfold files. rewrite !run_app.
  pose proof (sess_run base evs 0 _ _ _ _ HM ltac:(cbn [Z.of_nat]; lia) (started base)) as S. cbn [Nat.add andb] in S.
  assert (HC : (clusters evs <= length evs)%nat). { clear. induction evs as [|[] evs IH]; cbn [clusters length]; lia. }
  assert (HF : fine (Datatypes.S (clusters evs))) by (unfold fine, zlen in *; lia).
  apply closed_begin in S; [|exact HF].
  apply closed_run with (evs := tail) in S; [|unfold fine in *; lia|unfold small, fine in *; lia|exact HT].
  change (run [Finalizes true true] ?s) with (step s (Finalizes true true)).
  set (t := run tail _) in *. change (run [Finalized] t) with (finalized t).
  assert (E : ck_disk (finalized t) = ck_disk t) by (unfold finalized; destruct (ck_on t); reflexivity). rewrite E.
  split; [|split; [|split]].
  - intros k Hk. exists (chk base k). unfold n in Hk. split; [apply chunk_numbered; unfold small, fine in *; lia|]. apply (cd_look _ _ _ _ _ _ _ _ S). lia.
  - rewrite header_app. unfold play. rewrite fold_left_app. exact (cd_header _ _ _ _ _ _ _ _ S).
  - exists (chunk_file base ext_cues (Z.of_nat (Nat.pred (clusters evs)) + 1)). split; [|exact (cd_clook _ _ _ _ _ _ _ _ S)].
    replace (Z.of_nat n) with (Z.of_nat (Nat.pred (clusters evs)) + 1) by lia. apply chunk_numbered. unfold small, fine in *; lia.
  - exact (cd_len _ _ _ _ _ _ _ _ S).
Qed.
Print Assumptions C71_when_finished.

(* two clusters, the size of the first patched afterwards, in files named a *)
Definition ex_mux : list event :=
  [OnHeader (WCWrite [26; 69; 223; 163]); HeaderDone false; MakesCluster true; OnCluster (WCWrite [31; 67; 1; 0]); OnCluster (WCSeek 3); OnCluster (WCWrite [5]);
   MakesCluster true; OnCluster (WCWrite [31; 67; 2])].
Definition ex_tail : list event := [OnHeader (WCSeek 1); OnHeader (WCWrite [9]); OnCues (WCWrite [28; 83])].
Example C71_ex : Forall muxing ex_mux /\ Forall closing ex_tail /\ fst (SetChunking true [97] true true ck_init) = true /\
  ck_disk (run (start [97] ++ ex_mux ++ [Finalizes true true] ++ ex_tail ++ [Finalized]) ck_init) =
  [([97; 95; 48; 48; 48; 48; 48; 50; 46; 99; 117; 101; 115], [28; 83]);      (* a_000002.cues *)
   ([97; 95; 48; 48; 48; 48; 48; 49; 46; 99; 104; 107], [31; 67; 2]);        (* a_000001.chk *)
   ([97; 46; 104; 100; 114], [26; 9; 223; 163]);                             (* a.hdr *)
   ([97; 95; 48; 48; 48; 48; 48; 48; 46; 99; 104; 107], [31; 67; 1; 5])].    (* a_000000.chk *)
Proof. split; [repeat constructor|]. split; [repeat constructor|]. split; vm_compute; reflexivity. Qed.

(* Turning chunking on cannot be tried again: when the header file could not be
   opened, every later attempt fails, whatever the name and whatever can be opened. *)
Theorem C71_try_again_refuted : forall base attempts, Forall (fun e => match e with SetsChunking true _ _ _ => True | _ => False end) attempts ->
  forall n a b, fst (SetChunking true n a b (run (SetsChunking true base true false :: attempts) ck_init)) = false.
Proof.
  intros base attempts HA n a b. change (run (SetsChunking true base true false :: attempts) ck_init) with (run attempts (step ck_init (SetsChunking true base true false))).
  assert (S0 : ck_on (step ck_init (SetsChunking true base true false)) = false /\ ck_count (step ck_init (SetsChunking true base true false)) = 0 /\
               ck_cluster (step ck_init (SetsChunking true base true false)) <> None) by (split; [reflexivity|split; [reflexivity|discriminate]]).
  revert S0. generalize (step ck_init (SetsChunking true base true false)) as s.
  assert (ONE : forall s n a b, ck_on s = false /\ ck_count s = 0 /\ ck_cluster s <> None ->
    fst (SetChunking true n a b s) = false /\ (ck_on (snd (SetChunking true n a b s)) = false /\ ck_count (snd (SetChunking true n a b s)) = 0 /\ ck_cluster (snd (SetChunking true n a b s)) <> None)).
  { intros [on bb count size use cl cu hd d] n0 a0 b0 (H1 & H2 & H3). fields. subst. unfold SetChunking. fields. change (0 >? 0) with false. cbn [negb andb].
    destruct cl as [h|]; [|congruence]. cbn [Open negb]. fields. auto. }
  induction HA as [|e l He HA IH]; intros s HS; [exact (proj1 (ONE s n a b HS))|].
  destruct e as [|on fn x y| | | | | | |]; try contradiction. destruct on; [|contradiction]. change (run (SetsChunking true fn x y :: l) s) with (run l (step s (SetsChunking true fn x y))).
  apply IH. exact (proj2 (ONE s fn x y HS)).
Qed.
Print Assumptions C71_try_again_refuted.

(* A call that fails is not without effect: the later chunks have the name of the
   refused call (b_000001.chk after a_000000.chk). *)
Theorem C71_failed_call_refuted : exists s, s = run (start [97] ++ [MakesCluster true]) ck_init /\
  fst (SetChunking true [98] true true s) = false /\
  map fst (ck_disk (run [SetsChunking true [98] true true; MakesCluster true] s)) =
    [[98; 95; 48; 48; 48; 48; 48; 49; 46; 99; 104; 107]; [97; 46; 104; 100; 114]; [97; 95; 48; 48; 48; 48; 48; 48; 46; 99; 104; 107]].
Proof. eexists. split; [reflexivity|]. split; vm_compute; reflexivity. Qed.
Print Assumptions C71_failed_call_refuted.

(* Turning chunking off does not give the output back to the writer of the program:
   what is written goes on to the files of the chunks. *)
Theorem C71_off_refuted : forall base bs, bs <> [] ->
  let s := run (start base) ck_init in
  fst (SetChunking false base true true s) = true /\ ck_on (snd (SetChunking false base true true s)) = false /\
  look (base ++ [46] ++ ext_hdr) (ck_disk (run [SetsChunking false base true true; OnHeader (WCWrite bs)] s)) = Some bs.
Proof.
  intros base bs Hb s. split; [reflexivity|]. split; [reflexivity|]. pose proof (started base) as S. fold s in S.
  assert (S2 : sess base 0 (fun _ => ([], 0)) (play_one ([], 0) (WCWrite bs)) true (run [OnHeader (WCWrite bs)] s)).
  { apply (sess_header base 0 _ ([], 0) true s (WCWrite bs)); [reflexivity|exact S]. }
  assert (E : forall t c, ck_count t = 0 -> ck_disk (run [SetsChunking false base true true; OnHeader c] t) = ck_disk (run [OnHeader c] t)).
  { intros [on b count size use cl cu hd d] c H. fields. subst. cbn [run fold_left step]. unfold SetChunking. fields. change (0 >? 0) with false. fields.
    destruct use; fields; [destruct (call c hd d)|]; reflexivity. }
  rewrite E by exact (ss_count _ _ _ _ _ _ S). pose proof (ss_header _ _ _ _ _ _ S2) as H. unfold header_file in H. cbn [app]. rewrite H. unfold play_one. clear H S2 E.
  destruct (Z.eqb_spec (zlen bs) 0) as [Z0|_]; [destruct bs; [congruence|unfold zlen in Z0; cbn [length] in Z0; lia]|].
  cbn [fst snd]. unfold write_at. cbn [Z.to_nat repeat Nat.sub app firstn]. rewrite skipn_nil, app_nil_r. reflexivity.
Qed.
Print Assumptions C71_off_refuted.
