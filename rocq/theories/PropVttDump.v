(* C77: dumpvtt shows the cues of a file. *)
From Coq Require Import ZifyBool ZifyNat String Ascii.
From Verif Require Import Base MVtt VttSpec PVtt PVtt3 PropVtt VttMuxSpec MVttMux PVttMux PVttMux2 VttNameSpec MVttName PVttName VttDumpSpec MVttDump PVttDump.

(* Whatever the file holds, and wherever reading it fails, dumpvtt ends. *)
Theorem C77_ends : forall l, Forall fair_answer l -> exists ok out, dumpvtt l = Val (Some (ok, out)).
Proof.
  intros l HL. unfold dumpvtt. destruct (proj1 (C42_every_call_returns l 0 _ HL (us_new l))) as (e & p & E). rewrite E. cbn [obind].
  destruct (negb (e =? 0)); [eexists _, _; reflexivity|]. apply (dump_ends l (S (length l)) 0 p cue0 HL (us_init l 0 _ e p (us_new l) E)). lia.
Qed.
Print Assumptions C77_ends.

(* For any file: it fails with nothing printed if Init fails; else it prints the cues that
   Parse returns, and exits with success exactly if Parse then reports the end and not an
   error. *)
Inductive parsed : pstate -> cue -> list cue -> bool -> Prop :=
| pa_end : forall p q e q' p', Parse p q = Val (e, q', p') -> 0 < e -> parsed p q [] true
| pa_error : forall p q e q' p', Parse p q = Val (e, q', p') -> e < 0 -> parsed p q [] false
| pa_cue : forall p q q' p' qs ok, Parse p q = Val (0, q', p') -> parsed p' q' qs ok -> parsed p q (q' :: qs) ok.
Theorem C77_any_file : forall l ok out, dumpvtt l = Val (Some (ok, out)) ->
  exists e p, Init (new_parser l) = Val (e, p) /\
    (e <> 0 -> ok = false /\ out = []) /\
    (e = 0 -> exists qs, parsed p cue0 qs ok /\ out = concat (map print_cue qs)).
Proof.
  intros l ok out H. unfold dumpvtt in H. destruct (Init (new_parser l)) as [[e p]|]; cbn [obind] in H; [|discriminate H]. exists e, p. split; [reflexivity|].
  destruct (e =? 0) eqn:E0; cbn [negb] in H; [|injection H as <- <-; split; [intros _; split; reflexivity|lia]].
  split; [lia|]. intros _. clear e E0. revert H. generalize (S (length l)) as fuel. intros fuel. generalize cue0 as q. revert p ok out. induction fuel as [|fuel IH]; intros p ok out q H; cbn [dump_loop] in H; [discriminate H|].
  destruct (Parse p q) as [[[e q'] p']|] eqn:EP; cbn [obind] in H; [|discriminate H].
  destruct (e <? 0) eqn:E1; [injection H as <- <-; exists []; split; [apply (pa_error p q e q' p' EP); lia|reflexivity]|].
  destruct (e >? 0) eqn:E2; [injection H as <- <-; exists []; split; [apply (pa_end p q e q' p' EP); lia|reflexivity]|].
  destruct (dump_loop fuel p' q') as [[[ok' t]|]|] eqn:ED; cbn [obind] in H; [|discriminate H|discriminate H]. injection H as <- <-.
  destruct (IH p' ok' t q' ED) as (qs & HP & ->). exists (q' :: qs). split; [|reflexivity]. apply (pa_cue p q q' p'); [|exact HP]. replace 0 with e by lia. exact EP.
Qed.
Print Assumptions C77_any_file.

(* Of a WebVTT file it prints the cues, one after the other, and exits with success. *)
Theorem C77_shows_the_cues : forall file qs, vtt_file scaled file qs -> Forall (fun c => 0 <= c < 256) file -> ~ In 0 file -> Forall few_lines qs ->
  exists shown, Forall2 shown_cue qs shown /\ dumpvtt (map Ch file) = Val (Some (true, as_text (concat shown))).
Proof.
  intros file qs HV HB H0 HF. rewrite (dump_file file qs HV HB). pose proof (file_dump_ok file qs HV H0) as HD. clear HV HB H0.
  assert (K : exists shown, Forall2 shown_cue qs shown /\ concat (map print_cue qs) = as_text (concat shown)).
  { induction qs as [|q qs IH]; [exists []; split; [constructor|reflexivity]|]. apply Forall_cons_iff in HF. apply Forall_cons_iff in HD. destruct HF as [F HF], HD as [D HD].
    destruct (IH HF HD) as (sh & S & E). destruct (cue_shown q D F) as (ls & S1 & E1). exists (ls :: sh). split; [constructor; assumption|]. cbn [map concat]. rewrite as_text_app, E, E1. reflexivity. }
  destruct K as (sh & S & E). exists sh. split; [exact S|]. rewrite E. reflexivity.
Qed.
Print Assumptions C77_shows_the_cues.

(* Nothing is lost: files for which it prints the same have the same cues. *)
Theorem C77_tells_cues_apart : forall file1 qs1 file2 qs2,
  vtt_file scaled file1 qs1 -> Forall (fun c => 0 <= c < 256) file1 -> ~ In 0 file1 ->
  vtt_file scaled file2 qs2 -> Forall (fun c => 0 <= c < 256) file2 -> ~ In 0 file2 ->
  dumpvtt (map Ch file1) = dumpvtt (map Ch file2) -> qs1 = qs2.
Proof.
  intros file1 qs1 file2 qs2 V1 B1 N1 V2 B2 N2 E. rewrite (dump_file _ _ V1 B1), (dump_file _ _ V2 B2) in E. injection E as E.
  exact (cues_inv qs1 qs2 (file_dump_ok _ _ V1 N1) (file_dump_ok _ _ V2 N2) E).
Qed.
Print Assumptions C77_tells_cues_apart.

(* "WEBVTT", empty line, "id", "00:01.000 --> 00:02.500 a:b", and a line of text *)
Definition dump_in (line : list Z) : list Z :=
  text "WEBVTT" ++ [10; 10] ++ text "id" ++ [10] ++ text "00:01.000 --> 00:02.500 a:b" ++ [10] ++ line ++ [10].
Definition dump_out (line : list Z) : list Z := as_text
  [text "cue identifier: " ++ quote ++ text "id" ++ quote; text "cue start time: " ++ quote ++ text "HH=0 MM=0 SS=1 SSS=0" ++ quote;
   text "cue stop time: " ++ quote ++ text "HH=0 MM=0 SS=2 SSS=500" ++ quote; text "cue setting: name=a value=b"; text "cue payload[1]: " ++ quote ++ line ++ quote; []].
Example C77_ex : dumpvtt (map Ch (dump_in (text "hi"))) = Val (Some (true, dump_out (text "hi"))).
Proof. vm_compute. reflexivity. Qed.
(* the file of C48 is such a file *)
Example C77_ex_meets : vtt_file scaled ex_file [ex_cue] /\ Forall (fun c => 0 <= c < 256) ex_file /\ ~ In 0 ex_file /\ Forall few_lines [ex_cue].
Proof.
  split; [exact (file_weaken _ _ plain_scaled _ _ C48_nonvacuous)|]. split; [|split].
  - apply Forall_forall. intros c Hc. assert (H : forallb (fun c => (0 <=? c) && (c <? 256)) ex_file = true) by (vm_compute; reflexivity). rewrite forallb_forall in H. specialize (H c Hc). lia.
  - intro K. assert (H : forallb (fun c => negb (c =? 0)) ex_file = true) by (vm_compute; reflexivity). rewrite forallb_forall in H. specialize (H 0 K). discriminate H.
  - constructor; [unfold few_lines; vm_compute; reflexivity|constructor].
Qed.

(* What follows a NUL byte in a line is not shown, although the parser delivers it. *)
Theorem C77_nul_bytes_refuted : dumpvtt (map Ch (dump_in [104; 0; 105])) = dumpvtt (map Ch (dump_in [104; 0; 106])) /\
  exists p, Init (new_parser (map Ch (dump_in [104; 0; 105]))) = Val (0, p) /\ exists q p', Parse p cue0 = Val (0, q, p') /\ q_payload q = [[104; 0; 105]].
Proof. split; [vm_compute; reflexivity|]. eexists. split; [vm_compute; reflexivity|]. eexists _, _. split; vm_compute; reflexivity. Qed.
Print Assumptions C77_nul_bytes_refuted.
