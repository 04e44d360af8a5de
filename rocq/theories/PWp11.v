(* The callback parser: the notifications it delivers are properly nested
   (NestSpec.v), whatever the data and the answers. *)
From Coq Require Import ZifyBool ZifyNat.
From Verif Require Import Base WpSpec NestSpec MWp MWpBlock MWpTree PWp1 PWp2 PWp3 PWp4 PWp5 PWp6 PWp7 PWp8.

(* ---------- reading leaves the notifications alone ---------- *)
Lemma rd_give_tr : forall n cap s w c bs w', rd_give n cap s w = (c, bs, w') -> w_trace w' = w_trace w.
Proof. intros n cap s w c bs w'. unfold rd_give. destruct (w_data w); intro H; injection H as _ _ <-; reflexivity. Qed.
Lemma rd_take_tr : forall n w c bs w', rd_take n w = (c, bs, w') -> w_trace w' = w_trace w.
Proof.
  intros n w c bs w'. unfold rd_take. destruct (w_sched w); [apply rd_give_tr|].
  destruct (_ <=? 0); [intro H; injection H as _ _ <-; reflexivity | apply rd_give_tr].
Qed.
Lemma take_loop_tr : forall f n acc w c bs w', take_loop f n acc w = (c, bs, w') -> w_trace w' = w_trace w.
Proof.
  induction f as [|f IH]; intros n acc w c bs w' H; cbn [take_loop] in H; [injection H as _ _ <-; reflexivity|].
  destruct (rd_take n w) as [[c1 b1] w1] eqn:R. apply rd_take_tr in R.
  destruct (_ =? _); [apply IH in H; congruence | injection H as _ _ <-; exact R].
Qed.
Lemma take_all_tr : forall n w c bs w', take_all n w = (c, bs, w') -> w_trace w' = w_trace w.
Proof. intros n w c bs w'. apply take_loop_tr. Qed.
Lemma ReadByte_tr : forall w c b w', ReadByte w = (c, b, w') -> w_trace w' = w_trace w.
Proof.
  unfold ReadByte. intros w c b w' H. destruct (rd_take 1 w) as [[c1 b1] w1] eqn:R. apply rd_take_tr in R.
  injection H as _ _ <-. exact R.
Qed.
Lemma Accumulate_tr : forall sg bits num v nr w c k v' w', Accumulate sg bits num v nr w = (c, k, v', w') -> w_trace w' = w_trace w.
Proof.
  induction num as [|n IH]; intros v nr w c k v' w' H; cbn [Accumulate] in H; [quad H; reflexivity|].
  destruct (ReadByte w) as [[c1 b] w1] eqn:R. apply ReadByte_tr in R.
  destruct (_ =? _); [apply IH in H; congruence | quad H; exact R].
Qed.
Ltac trace_of H :=
  repeat match type of H with
  | context [let '(_, _) := ?x in _] =>
      let E := fresh "E" in destruct x as [[[? ?] ?] ?] eqn:E || destruct x as [[? ?] ?] eqn:E;
      (apply Accumulate_tr in E || apply ReadByte_tr in E || apply take_all_tr in E)
  | context [if ?b then _ else _] => destruct b
  end; try quad H; congruence.
Lemma IdParser_tr : forall st w c k st' w', IdParser_Feed st w = (c, k, st', w') -> w_trace w' = w_trace w.
Proof. unfold IdParser_Feed, id_rest. intros st w c k st' w' H. trace_of H. Qed.
Lemma VarInt_tr : forall st w c k st' w', VarIntParser_Feed st w = (c, k, st', w') -> w_trace w' = w_trace w.
Proof. unfold VarIntParser_Feed, vi_rest. cbv zeta. intros st w c k st' w' H. trace_of H. Qed.
Lemma SizeParser_tr : forall st w c k st' w', SizeParser_Feed st w = (c, k, st', w') -> w_trace w' = w_trace w.
Proof.
  unfold SizeParser_Feed. intros st w c k st' w' H. destruct (VarIntParser_Feed st w) as [[[? ?] ?] ?] eqn:E.
  apply VarInt_tr in E. quad H. exact E.
Qed.
Lemma Int_tr : forall sg st w c k st' w', IntParser_Feed sg st w = (c, k, st', w') -> w_trace w' = w_trace w.
Proof. unfold IntParser_Feed. cbv zeta. intros sg st w c k st' w' H. trace_of H. Qed.
Lemma Float_tr : forall st w c k st' w', FloatParser_Feed st w = (c, k, st', w') -> w_trace w' = w_trace w.
Proof. unfold FloatParser_Feed. cbv zeta. intros st w c k st' w' H. trace_of H. Qed.
Lemma Date_tr : forall st w c k st' w', DateParser_Feed st w = (c, k, st', w') -> w_trace w' = w_trace w.
Proof. unfold DateParser_Feed. cbv zeta. intros st w c k st' w' H. trace_of H. Qed.
Lemma IdEl_tr : forall st w c k st' w', IdElementParser_Feed st w = (c, k, st', w') -> w_trace w' = w_trace w.
Proof. unfold IdElementParser_Feed. cbv zeta. intros st w c k st' w' H. trace_of H. Qed.
Lemma Bool_tr : forall st w c k st' w', BoolParser_Feed st w = (c, k, st', w') -> w_trace w' = w_trace w.
Proof. unfold BoolParser_Feed. cbv zeta. intros st w c k st' w' H. trace_of H. Qed.
Lemma Byte_tr : forall str st w c k st' w', ByteParser_Feed str st w = (c, k, st', w') -> w_trace w' = w_trace w.
Proof. unfold ByteParser_Feed. cbv zeta. intros str st w c k st' w' H. trace_of H. Qed.
Lemma Skip_tr : forall st w c k st' w', SkipParser_Feed st w = (c, k, st', w') -> w_trace w' = w_trace w.
Proof. unfold SkipParser_Feed. cbv zeta. intros st w c k st' w' H. trace_of H. Qed.
Lemma BH_tr : forall st w c k st' w', BlockHeaderParser_Feed st w = (c, k, st', w') -> w_trace w' = w_trace w.
Proof.
  assert (F : forall st nr w c k st' w', h_flags_step st nr w = (c, k, st', w') -> w_trace w' = w_trace w).
  { unfold h_flags_step. intros st nr w c k st' w' H. trace_of H. }
  assert (T : forall st nr w c k st' w', h_time_step st nr w = (c, k, st', w') -> w_trace w' = w_trace w).
  { unfold h_time_step. cbv zeta. intros st nr w c k st' w' H. destruct (Accumulate _ _ _ _ _ w) as [[[? ?] ?] ?] eqn:E.
    apply Accumulate_tr in E. destruct (negb _); [quad H; exact E | apply F in H; congruence]. }
  unfold BlockHeaderParser_Feed, h_track_step. intros st w c k st' w' H. destruct (h_state st); eauto; [|quad H; reflexivity].
  destruct (VarIntParser_Feed _ w) as [[[? ?] ?] ?] eqn:E. apply VarInt_tr in E.
  destruct (negb _); [quad H; exact E | apply T in H; congruence].
Qed.
Lemma Virtual_tr : forall st w c k st' w', VirtualBlockParser_Feed st w = (c, k, st', w') -> w_trace w' = w_trace w.
Proof.
  unfold VirtualBlockParser_Feed, vb_validate. intros st w c k st' w' H. destruct (vb_state st).
  - destruct (BlockHeaderParser_Feed _ w) as [[[? ?] ?] ?] eqn:E. apply BH_tr in E.
    destruct (negb _); [quad H; exact E|]. destruct (_ <? _); quad H; exact E.
  - destruct (_ <? _); quad H; reflexivity.
  - quad H; reflexivity.
Qed.

(* ---------- the elements a parser state has open ---------- *)
Definition St (w : world) : option stack := nesting (w_trace w).

Lemma meta_eqb_refl : forall m, meta_eqb m m = true.
Proof. intro m. unfold meta_eqb. rewrite !Z.eqb_refl. reflexivity. Qed.
Lemma bkind_eqb_refl : forall k, bkind_eqb k k = true.
Proof. destruct k; reflexivity. Qed.

Definition begins (n : node) : option (bkind * Z) :=
  match n with
  | NSegment => Some (KSegment, idSegment)
  | NVal VCluster => Some (KCluster, idCluster)
  | NVal VBlockGroup => Some (KBlockGroup, idBlockGroup)
  | _ => None
  end.
Definition own (n : node) (m : mst) (v : vst) : stack :=
  match begins n with
  | Some (k, id) => if v_started v && negb (v_skip v) then [(k, own_meta id m)] else []
  | None => []
  end.
Definition open_block (s : bst) : bool :=
  match b_state s with BHeader | BLaceCount | BAction | BSkipping => false | _ => true end.
Fixpoint opn (p : pstate) : stack :=
  match p with
  | PMaster n m ch v =>
      (match m_state m with MBody => match ch with CAct c => opn c | _ => [] end | _ => [] end) ++ own n m v
  | PBlock simple s => if open_block s then [(b_kind simple, b_meta s)] else []
  | PRec q => opn q
  | _ => []
  end.

(* the open elements around a node: None for nodes that only have to be outside blocks *)
Definition req (n : node) : option (list bkind) :=
  match n with
  | NSegment | NVal VEbml => Some []
  | NVal VCluster | NSeekHead | NChapters | NCues | NTags | NTracks
  | NVal VSeek | NVal VInfo | NVal VTrackEntry | NVal VCuePoint | NVal VEdition | NVal VTag => Some [KSegment]
  | NVal VBlockGroup | NBlock true => Some [KCluster; KSegment]
  | NBlock false => Some [KBlockGroup; KCluster; KSegment]
  | _ => None
  end.
Definition ctxr (r : option (list bkind)) (base : stack) : Prop :=
  match r with Some ks => kinds base = ks | None => in_block base = false end.
Definition preq (p : pstate) : option (list bkind) :=
  match p with
  | PMaster n _ _ _ => req n
  | PBlock s _ => req (NBlock s)
  | _ => None
  end.
Definition own_kinds (n : node) : list bkind := match begins n with Some (k, _) => [k] | None => [] end.
Definition fits (n : node) (cn : node) : Prop :=
  match req cn with
  | None => True
  | Some ks => match req n with Some kn => ks = own_kinds n ++ kn | None => False end
  end /\
  (n = NVal VCluster -> req cn <> None -> cn = NBlock true \/ cn = NVal VBlockGroup).
Definition sees (n : node) : bool := match n with NSegment | NVal _ => true | _ => false end.
Definition waits (n : node) (p : pstate) (v : vst) : bool := is_start n p && negb (v_started v).

(* the begin comes before anything else *)
Definition notyet (n : node) (v : vst) : bool :=
  match n with NSegment | NVal VBlockGroup => negb (v_started v) | _ => false end.
Definition sclause (sk : bool) (n : node) (v : vst) : Prop :=
  (is_master n = true /\ (sees n = false -> v_complete v = false)) /\
  (sk = true -> begins n <> None -> v_started v = true -> v_skip v = true).
Fixpoint okp (sk : bool) (base : stack) (p : pstate) : Prop :=
  (sk = false -> ctxr (preq p) base) /\
  match p with
  | PMaster n m ch v =>
      sclause sk n v /\
      ((v_complete v = true -> m_state m = MEnd) /\ (notyet n v = true -> m_state m = MFirst \/ m_state m = MEnd)) /\
      match m_state m with
      | MBody =>
          match ch with
          | CAct c =>
              if waits n c v
              then (forall q b, (q = false -> ctxr (preq c) b) -> okp q b c) /\ preq c = Some [KCluster; KSegment]
              else okp (sk || (sees n && v_skip v) || m_skip m) (own n m v ++ base) c
          | _ => True
          end
      | MAction | MInit => match ch with CSel cn => fits n cn | _ => True end
      | _ => True
      end
  | PBlock _ s => sk = true -> open_block s = false
  | PRec q => okp sk base q
  | _ => True
  end.

(* nothing is open in a parser that runs under a SkipCallback *)
Lemma okp_quiet : forall p b, okp true b p -> opn p = [].
Proof.
  fix IH 1. intros p b H. destruct p; try reflexivity.
  - destruct H as (_ & H). cbn [opn]. rewrite (H eq_refl). reflexivity.
  - destruct H as (_ & (_ & H1) & _ & H2). cbn [opn].
    replace (own n m v) with (@nil (bkind * meta)).
    2:{ unfold own. destruct (begins n) as [[k id]|] eqn:B; [|reflexivity].
        destruct (v_started v) eqn:S; [|reflexivity]. rewrite H1; auto. congruence. }
    rewrite app_nil_r. destruct (m_state m); try reflexivity. destruct c as [| |c]; try reflexivity.
    destruct (waits n c v).
    + destruct H2 as (H2 & _). apply (IH c []). apply H2. discriminate.
    + apply (IH c _ H2).
  - destruct H as (_ & H). cbn [opn]. apply (IH p _ H).
Qed.

(* ---------- the children tables ---------- *)
Lemma children_fit : forall n, Forall (fun '(_, cn) => fits n cn) (children n).
Proof.
  intro n. unfold children, own_children. destruct n; try (constructor; [split; [exact I | discriminate]|constructor]).
  all: try (repeat constructor; cbn; try discriminate; fail).
  destruct v; cbn [val_children app];
    repeat (apply Forall_cons; [split; [cbn; auto; reflexivity | (discriminate || (intros _ Q; cbn in Q; auto; congruence))]|]);
    apply Forall_nil.
Qed.
Lemma lookup_fit : forall n id cn, lookup id (children n) = Some cn -> fits n cn.
Proof.
  intros n id cn. pose proof (children_fit n) as F. revert F. generalize (children n) as l.
  induction l as [|[i x] l IH]; intros F H; cbn [lookup] in H; [discriminate|]. inversion F as [|? ? F1 F2]; subst.
  destruct (i =? id); [injection H as ->; exact F1 | exact (IH F2 H)].
Qed.
Lemma fits_none : forall n cn, req cn = None -> fits n cn.
Proof. intros n cn H. unfold fits. rewrite H. split; [exact I | congruence]. Qed.

Lemma ctx_out : forall n base, ctxr (req n) base -> n <> NBlock true -> n <> NBlock false -> in_block base = false.
Proof.
  intros n base H A B. unfold ctxr in H. destruct (req n) as [ks|] eqn:R; [|exact H].
  destruct base as [|[k m] st]; [reflexivity|]. cbn in H. 
  destruct n; try discriminate; try (injection R as <-; cbn in H; injection H as -> _; reflexivity).
  all: try (destruct simple; congruence).
  all: try (injection R as <-; discriminate).
  destruct v; try discriminate; injection R as <-; try discriminate; cbn in H; injection H as -> _; reflexivity.
Qed.

(* the surroundings of a child *)
Lemma fits_ctx : forall n cn m v base, fits n cn -> ctxr (req n) base -> is_master n = true ->
  (begins n <> None -> v_started v = true /\ v_skip v = false) -> ctxr (req cn) (own n m v ++ base).
Proof.
  intros n cn m v base (F & _) C M B. unfold own.
  assert (O : in_block base = false) by (apply (ctx_out n); [exact C | |]; intros ->; discriminate).
  unfold own_kinds in F.
  destruct (begins n) as [[k id]|] eqn:Bn.
  - destruct B as (-> & ->); [discriminate|]. cbn [andb negb app].
    destruct (req cn) as [ks|]; cbn [ctxr].
    + destruct (req n) as [kn|]; [|contradiction]. cbn in C. unfold kinds in *. cbn [map fst]. rewrite F, C. reflexivity.
    + unfold begins in Bn. destruct n; try discriminate; [injection Bn as <- _; reflexivity|].
      destruct v0; try discriminate; injection Bn as <- _; reflexivity.
  - cbn [app]. destruct (req cn) as [ks|]; cbn [ctxr]; [|exact O].
    destruct (req n) as [kn|]; [|contradiction]. cbn in C, F. congruence.
Qed.

(* a new parser has nothing open *)
Lemma Init_req : forall cn x max p, parser_Init cn x max = (kOkCompleted, p) -> preq p = req cn.
Proof.
  intros cn x max p H. destruct cn; cbn [parser_Init] in H; try (injection H; intros; subst p; reflexivity).
  all: destruct d; [discriminate|]; injection H; intros; subst p; reflexivity.
Qed.
Lemma Init_okp : forall cn x max p, parser_Init cn x max = (kOkCompleted, p) ->
  forall q b, (q = false -> ctxr (preq p) b) -> okp q b p.
Proof.
  intros cn x max p H q b C.
  assert (M : forall n, is_master n = true -> (q = false -> ctxr (req n) b) -> okp q b (PMaster n (MasterParser_Init x max) CNone v_new)).
  { intros n Mn C'. cbn. split; [exact C'|]. split; [split; [split; [exact Mn | reflexivity] | discriminate]|].
    split; [split; [discriminate | intros _; destruct (me_size x =? 0); auto]|]. destruct (me_size x =? 0); exact I. }
  destruct cn; cbn [parser_Init] in H; try (injection H; intros; subst p; split; [exact C | exact I]).
  all: try (injection H; intros; subst p; apply M; [reflexivity | exact C]).
  - unfold BlockParser_Init in H. destruct (_ || _); [discriminate|]. injection H; intros; subst p. split; [exact C|].
    intros _. reflexivity.
  - destruct d; [discriminate|]. injection H; intros; subst p. split; [exact C | apply M; [reflexivity | exact C]].
  - destruct d; [discriminate|]. injection H; intros; subst p. split; [exact C | apply M; [reflexivity | exact C]].
Qed.
Lemma Init_start : forall cn x max p, parser_Init cn x max = (kOkCompleted, p) -> fits (NVal VCluster) cn ->
  is_start (NVal VCluster) p = false -> req cn = None.
Proof.
  intros cn x max p H (_ & F) S. destruct (req cn) eqn:R; [|reflexivity].
  destruct F as [-> | ->]; [reflexivity | discriminate | |]; cbn in H; injection H; intros; subst p; discriminate.
Qed.

Section nest.
Variable cb : callback.
Hypothesis Pcb : proper cb.

Lemma notify_sk : forall e w c s w', notify cb true e w = (c, s, w') -> c = kOkCompleted /\ s = true /\ w' = w.
Proof. unfold notify. intros e w c s w' H. injection H as <- <- <-. auto. Qed.
Lemma notify_st : forall e w c s w' st st', notify cb false e w = (c, s, w') -> St w = Some st ->
  nest st (e, (c, s)) = Some st' -> St w' = Some st'.
Proof.
  unfold notify. intros e w c s w' st st' H S N. injection H as H1 H2 <-. unfold St in *. cbn [w_log w_trace nesting].
  rewrite S. destruct (cb (w_trace w) e) as [c0 s0]. cbn in H1, H2. subst. exact N.
Qed.
Lemma log_bytes_st : forall d bs w st, may_read d st = true -> St w = Some st -> St (log_bytes d bs w) = Some st.
Proof.
  induction bs as [|b bs IH]; intros w st M S; [exact S|]. cbn [log_bytes fold_left]. apply IH; [exact M|].
  unfold St in *. cbn [w_log w_trace nesting nest]. rewrite S, M. reflexivity.
Qed.
Lemma St_eq : forall w w', w_trace w' = w_trace w -> St w' = St w.
Proof. unfold St. intros w w' ->. reflexivity. Qed.
Lemma on_data_st : forall sk d rem w c r w' st, on_data cb sk d rem w = (c, r, w') ->
  (sk = false -> may_read d st = true) -> St w = Some st -> St w' = Some st.
Proof.
  unfold on_data. intros sk d rem w c r w' st H M S.
  destruct (if rem =? 0 then _ else _) as [[c1 bs] w1] eqn:E.
  assert (T : w_trace w1 = w_trace w).
  { destruct (rem =? 0); [injection E as _ _ <-; reflexivity | apply take_all_tr in E; exact E]. }
  assert (S1 : St w1 = Some st) by (rewrite (St_eq w w1 T); exact S). cbv zeta in H.
  destruct sk.
  - destruct (negb _); injection H as _ _ <-; exact S1.
  - assert (S2 : St (log_bytes d bs w1) = Some st) by (apply log_bytes_st; auto).
    destruct (negb _); [injection H as _ _ <-; exact S2|].
    destruct (notify cb false (EDataEnd d) _) as [[c3 s3] w3] eqn:N. injection H as _ _ <-.
    eapply notify_st; [exact N | exact S2|]. cbn. rewrite M; reflexivity.
Qed.

(* ---------- blocks ---------- *)
Section blk.
Variables (simple : bool) (base : stack) (x : meta).
Notation kd := (b_kind simple).
Definition bpost (r : Z * Z * bst * world) : Prop :=
  let '(c, _, s, w) := r in
  b_meta s = x /\ open_block s = true /\ St w = Some ((if c =? 0 then [] else [(kd, x)]) ++ base).
Definition binv (s : bst) (w : world) : Prop := b_meta s = x /\ St w = Some ((kd, x) :: base).

Lemma kd_read : forall pos size, may_read (DFrame x pos size) ((kd, x) :: base) = true.
Proof. intros. cbn. rewrite meta_eqb_refl. destruct simple; reflexivity. Qed.
Lemma b_done_st : forall s nr w, binv s w -> open_block s = true -> bpost (b_done cb simple false s nr w).
Proof.
  intros s nr w (E & S) O. unfold b_done. destruct (notify cb false _ w) as [[c sk] w1] eqn:N.
  split; [exact E|]. split; [exact O|]. rewrite E in N.
  eapply notify_st; [exact N | exact S|]. cbn [nest]. rewrite bkind_eqb_refl, meta_eqb_refl. cbn [andb]. 
  destruct (c =? 0); reflexivity.
Qed.
Lemma b_frames_st : forall k s nr w, binv s w -> b_state s = BFrames -> bpost (b_frames cb simple false k s nr w).
Proof.
  induction k as [|k IH]; intros s nr w I B; cbn [b_frames]; [apply b_done_st; [exact I | reflexivity]|].
  cbv zeta. destruct I as (E & S). rewrite E.
  destruct (on_data cb false _ _ w) as [[c r] w1] eqn:D.
  eapply on_data_st in D; [| intros _; apply kd_read | exact S].
  destruct (negb (c =? kOkCompleted)) eqn:C.
  - split; [exact E|]. split; [unfold open_block; cbn; rewrite B; reflexivity|].
    change kOkCompleted with 0 in C. destruct (c =? 0); [discriminate | exact D].
  - apply IH; [|destruct (_ <? _); exact B]. split; [destruct (_ <? _); exact E | exact D].
Qed.
Lemma b_frames_step_st : forall s nr w, binv s w -> bpost (b_frames_step cb simple false s nr w).
Proof. intros s nr w I. apply b_frames_st; [exact I | reflexivity]. Qed.
Lemma bpost_err : forall c nr s w, c <> 0 -> binv s w -> open_block s = true -> bpost (c, nr, s, w).
Proof. intros c nr s w C (E & S) O. split; [exact E|]. split; [exact O|]. rewrite (proj2 (Z.eqb_neq c 0) C). exact S. Qed.
Lemma b_validate_st : forall s nr w, binv s w -> bpost (b_validate cb simple false s nr w).
Proof.
  intros s nr w I. unfold b_validate. cbv zeta. destruct (_ <=? _).
  - apply bpost_err; [discriminate | exact I | reflexivity].
  - apply b_frames_step_st. exact I.
Qed.
Lemma b_fixed_st : forall s nr w, binv s w -> bpost (b_fixed cb simple false s nr w).
Proof.
  intros s nr w I. unfold b_fixed. cbv zeta. destruct (_ <=? _); [|destruct (negb _)].
  - apply bpost_err; [discriminate | exact I | reflexivity].
  - apply bpost_err; [discriminate | exact I | reflexivity].
  - apply b_frames_step_st. exact I.
Qed.
Lemma neq_ok : forall c, negb (c =? kOkCompleted) = true -> c <> 0.
Proof. intros c H ->. discriminate. Qed.
Lemma b_ebml_st : forall k s nr w, binv s w -> bpost (b_ebml cb simple false k s nr w).
Proof.
  induction k as [|k IH]; intros s nr w I; cbn [b_ebml]; [apply b_validate_st; exact I|].
  destruct (VarIntParser_Feed (b_up s) w) as [[[c n] u] w1] eqn:V. apply VarInt_tr in V. cbv zeta.
  assert (I1 : binv (b_set_up u (b_add_hread n s)) w1) by (destruct I as (E & S); split; [exact E | rewrite (St_eq _ _ V); exact S]).
  destruct (negb (c =? kOkCompleted)) eqn:C; [apply bpost_err; [apply neq_ok; exact C | exact I1 | reflexivity]|].
  apply IH. exact I1.
Qed.
Lemma b_ebml_first_st : forall s nr w, binv s w -> bpost (b_ebml_first cb simple false s nr w).
Proof.
  intros s nr w I. unfold b_ebml_first.
  destruct (VarIntParser_Feed (b_up s) w) as [[[c n] u] w1] eqn:V. apply VarInt_tr in V. cbv zeta.
  assert (I1 : binv (b_set_up u (b_add_hread n s)) w1) by (destruct I as (E & S); split; [exact E | rewrite (St_eq _ _ V); exact S]).
  destruct (negb (c =? kOkCompleted)) eqn:C; [apply bpost_err; [apply neq_ok; exact C | exact I1 | reflexivity]|].
  apply b_ebml_st. exact I1.
Qed.
Lemma b_xiph_st : forall f s nr w, binv s w -> bpost (b_xiph_loop cb simple false f s nr w).
Proof.
  induction f as [|f IH]; intros s nr w I; cbn [b_xiph_loop].
  - destruct (_ <=? _); [apply b_validate_st; exact I | apply bpost_err; [discriminate | exact I | reflexivity]].
  - destruct (_ <=? _); [apply b_validate_st; exact I|].
    destruct (ReadByte w) as [[c b] w1] eqn:R. apply ReadByte_tr in R. cbv zeta.
    assert (I1 : binv s w1) by (destruct I as (E & S); split; [exact E | rewrite (St_eq _ _ R); exact S]).
    destruct (negb (c =? kOkCompleted)) eqn:C; [apply bpost_err; [apply neq_ok; exact C | exact I1 | reflexivity]|].
    destruct (b =? 255); apply IH; exact I1.
Qed.
End blk.

Definition blkpost (sk simple : bool) (base : stack) (x : meta) (r : Z * Z * bst * world) : Prop :=
  let '(c, _, s, w) := r in
  b_meta s = x /\ (c <> 0 -> sk = true -> open_block s = false) /\
  St w = Some ((if c =? 0 then [] else opn (PBlock simple s)) ++ base).
Lemma bpost_blk : forall simple base x r, bpost simple base x r -> blkpost false simple base x r.
Proof.
  intros simple base x [[[c k] s] w] (A & B & C). split; [exact A|]. split; [discriminate|].
  cbn [opn]. rewrite B, A. exact C.
Qed.
Lemma blk_quiet : forall sk simple base x c k s w, b_meta s = x -> open_block s = false -> St w = Some base ->
  blkpost sk simple base x (c, k, s, w).
Proof.
  intros sk simple base x c k s w A B C. split; [exact A|]. split; [intros _ _; exact B|]. cbn [opn]. rewrite B.
  destruct (c =? 0); exact C.
Qed.
Lemma b_skipping_st : forall sk simple base x s nr w, b_meta s = x -> St w = Some base ->
  blkpost sk simple base x (b_skipping s nr w).
Proof.
  intros sk simple base x s nr w A S. unfold b_skipping. destruct (take_all _ w) as [[c bs] w1] eqn:T. apply take_all_tr in T.
  apply blk_quiet; [exact A | reflexivity | rewrite (St_eq _ _ T); exact S].
Qed.
Lemma b_action_st : forall sk simple base x s nr w, b_meta s = x -> St w = Some base ->
  (sk = false -> ctxr (req (NBlock simple)) base) -> blkpost sk simple base x (b_action cb simple sk s nr w).
Proof.
  intros sk simple base x s nr w A S C. unfold b_action. destruct (notify cb sk _ w) as [[c k] w1] eqn:N. cbv zeta.
  destruct sk.
  - apply notify_sk in N. destruct N as (-> & -> & ->). cbn [negb Z.eqb kOkCompleted]. apply b_skipping_st; assumption.
  - specialize (C eq_refl).
    assert (S1 : St w1 = Some (if (c =? 0) && negb k then (b_kind simple, x) :: base else base)).
    { eapply notify_st; [exact N | exact S|]. rewrite A. cbn [nest].
      replace (may_begin (b_kind simple) base) with true; [reflexivity|].
      destruct simple; cbn in C; unfold may_begin; rewrite C; reflexivity. }
    destruct (negb (c =? kOkCompleted)) eqn:E.
    + apply blk_quiet; [exact A | reflexivity|]. change kOkCompleted with 0 in E. destruct (c =? 0); [discriminate | exact S1].
    + change kOkCompleted with 0 in E. destruct (c =? 0); [|discriminate]. cbn [andb] in S1.
      destruct k; cbn [negb] in S1; [apply b_skipping_st; assumption|].
      apply bpost_blk. assert (I : binv simple base x s w1) by (split; assumption).
      repeat match goal with |- context [if ?b then _ else _] => destruct b end.
      * apply b_validate_st; exact I.
      * apply b_xiph_st; exact I.
      * apply b_ebml_first_st; exact I.
      * apply b_fixed_st; exact I.
Qed.
Lemma b_lace_count_st : forall sk simple base x s nr w, b_meta s = x -> St w = Some base ->
  (sk = false -> ctxr (req (NBlock simple)) base) -> blkpost sk simple base x (b_lace_count cb simple sk s nr w).
Proof.
  intros sk simple base x s nr w A S C. unfold b_lace_count. destruct (ReadByte w) as [[c b] w1] eqn:R. apply ReadByte_tr in R.
  assert (S1 : St w1 = Some base) by (rewrite (St_eq _ _ R); exact S). cbv zeta.
  destruct (negb _); [apply blk_quiet; [exact A | reflexivity | exact S1] | apply b_action_st; assumption].
Qed.
Lemma b_header_st : forall sk simple base x s w, b_meta s = x -> St w = Some base ->
  (sk = false -> ctxr (req (NBlock simple)) base) -> blkpost sk simple base x (b_header cb simple sk s w).
Proof.
  intros sk simple base x s w A S C. unfold b_header. destruct (BlockHeaderParser_Feed _ w) as [[[c n] h] w1] eqn:R. apply BH_tr in R.
  assert (S1 : St w1 = Some base) by (rewrite (St_eq _ _ R); exact S). cbv zeta.
  destruct (negb _); [apply blk_quiet; [exact A | reflexivity | exact S1]|].
  destruct (_ =? 0); [apply b_action_st; assumption | apply b_lace_count_st; assumption].
Qed.
Lemma block_st : forall sk simple base s w, okp sk base (PBlock simple s) ->
  St w = Some (opn (PBlock simple s) ++ base) -> blkpost sk simple base (b_meta s) (BlockParser_Feed cb simple sk s w).
Proof.
  intros sk simple base s w (C & Q) S. cbn [preq] in C. unfold BlockParser_Feed. cbn [opn] in S. unfold open_block in S, Q.
  destruct sk; [specialize (Q eq_refl) | clear Q].
  - destruct (b_state s); try discriminate;
      [apply b_header_st | apply b_lace_count_st | apply b_action_st | apply b_skipping_st]; auto.
  - assert (I : forall st, St w = Some ([(b_kind simple, b_meta s)] ++ st) -> binv simple st (b_meta s) s w) by (split; auto).
    destruct (b_state s) eqn:B.
    + apply b_header_st; auto.
    + apply b_lace_count_st; auto.
    + apply b_action_st; auto.
    + apply bpost_blk, b_xiph_st; auto.
    + apply bpost_blk, b_ebml_first_st; auto.
    + apply bpost_blk, b_ebml_st; auto.
    + apply bpost_blk, b_fixed_st; auto.
    + apply bpost_blk, b_validate_st; auto.
    + apply b_skipping_st; auto.
    + apply bpost_blk, b_frames_step_st; auto.
    + apply bpost_blk, b_done_st; auto. unfold open_block. rewrite B. reflexivity.
Qed.

(* ---------- the parsers ---------- *)
Definition fpost (sk : bool) (base : stack) (c : Z) (p' : pstate) (w' : world) : Prop :=
  (c = 0 -> St w' = Some base) /\ (c <> 0 -> okp sk base p' /\ St w' = Some (opn p' ++ base)).
Definition clF (f : nat) : Prop := forall sk base p w c k p' w',
  wfp p -> okp sk base p -> St w = Some (opn p ++ base) -> feed cb f sk p w = Some (c, k, p', w') -> fpost sk base c p' w'.
Definition clM (f : nat) : Prop := forall sk0 base n m ch v nr osk sk w c k m' ch' v' w',
  is_master n = true -> wfm m ch -> okp sk0 base (PMaster n m ch v) -> notyet n v = false ->
  osk = sk0 || (sees n && v_skip v) -> sk = osk || m_skip m -> v_complete v = false ->
  St w = Some (opn (PMaster n m ch v) ++ base) ->
  mloop cb f n osk sk m ch v nr w = Some (c, k, (m', ch', v'), w') ->
  okp sk0 base (PMaster n m' ch' v') /\ St w' = Some (opn (PMaster n m' ch' v') ++ base) /\
  (c = 0 -> m_state m' = MEnd).

Lemma begins_master : forall n k id, begins n = Some (k, id) -> k = KSegment \/ k = KCluster \/ k = KBlockGroup.
Proof.
  intros n k id H. destruct n; try discriminate; [injection H as <- _; auto|].
  destruct v; try discriminate; injection H as <- _; auto.
Qed.
Lemma master_out : forall n base, is_master n = true -> ctxr (req n) base -> in_block base = false.
Proof. intros n base M C. apply (ctx_out n); [exact C | |]; intros ->; discriminate. Qed.
Lemma own_out : forall n m v base, is_master n = true -> ctxr (req n) base -> in_block (own n m v ++ base) = false.
Proof.
  intros n m v base M C. pose proof (master_out _ _ M C) as O. unfold own.
  destruct (begins n) as [[k id]|] eqn:B; [|exact O]. destruct (_ && _); [|exact O]. cbn.
  destruct (begins_master _ _ _ B) as [-> | [-> | ->]]; reflexivity.
Qed.

Lemma start_req : forall n p, is_start n p = true -> preq p = Some [KCluster; KSegment].
Proof.
  intros n p H. pose proof (is_start_cluster _ _ H) as ->. destruct p as [| | | | | | | | |simple s| |x m c v|]; try discriminate.
  - destruct simple; [reflexivity | discriminate].
  - destruct x as [| | | | | | | | | | | | | | | | | | |y| |]; try discriminate. destruct y; try discriminate. reflexivity.
Qed.

Lemma mloop_nest : forall f, clF f -> clM f -> clM (S f).
Proof.
  intros f IHf IHm sk0 base n m ch v nr osk sk w c k m' ch' v' w' Mn W O Rd Eo Es Vc S H.
  assert (W' := W). destruct W' as (Wm & Wc). assert (O' := O). destruct O' as (O1 & O2 & O3 & O4).
  destruct (m_state m) eqn:Em.
  - (* MFirst *)
    cbn [opn] in S. rewrite Em in S. cbn [app] in S.
    rewrite ml_MFirst in H by exact Em. cbv zeta in H.
    destruct (IdParser_Feed (m_idp m) w) as [[[s k1] i] w1] eqn:I. apply IdParser_tr in I. rewrite <- (St_eq _ _ I) in S.
    repeat match type of H with context [if ?b then _ else _] => destruct b eqn:? end.
    + refine (IHm _ _ _ _ _ _ _ _ _ _ _ _ _ _ _ _ Mn _ _ Rd Eo _ Vc _ H); [split; cbn; auto | | exact Es | exact S].
      split; [exact O1|]; split; [exact O2|]; split; [split; intro; congruence | exact Logic.I].
    + injection H as <- <- <- <- <- <-. split; [|split; [exact S | intros ->; discriminate]].
      split; [exact O1|]; split; [exact O2|]; split; [split; intro; congruence | exact Logic.I].
    + injection H as <- <- <- <- <- <-. split; [|split; [cbn [opn m_set_idp m_add_total m_set_cm m_state]; rewrite Em; exact S | intros ->; discriminate]].
      split; [exact O1|]; split; [exact O2|]; split; [split; intro; congruence|]. cbn [m_set_idp m_add_total m_set_cm m_state]. rewrite Em. exact Logic.I.
    + refine (IHm _ _ _ _ _ _ _ _ _ _ _ _ _ _ _ _ Mn _ _ Rd Eo _ Vc _ H); [split; cbn; auto | | exact Es | exact S].
      split; [exact O1|]; split; [exact O2|]; split; [split; intro; congruence | exact Logic.I].
    + refine (IHm _ _ _ _ _ _ _ _ _ _ _ _ _ _ _ _ Mn _ _ Rd Eo _ Vc _ H); [split; cbn; auto | | exact Es | exact S].
      split; [exact O1|]; split; [exact O2|]; split; [split; intro; congruence | exact Logic.I].
  - (* MFinishing *)
    cbn [opn] in S. rewrite Em in S. cbn [app] in S.
    rewrite ml_MFinishing in H by exact Em. cbv zeta in H.
    destruct (IdParser_Feed (m_idp m) w) as [[[s k1] i] w1] eqn:I. apply IdParser_tr in I. rewrite <- (St_eq _ _ I) in S.
    destruct (negb (s =? kOkCompleted)) eqn:E.
    + injection H as <- <- <- <- <- <-. split; [|split; [cbn [opn m_set_idp m_add_total m_set_cm m_state]; rewrite Em; exact S | intros ->; discriminate]].
      split; [exact O1|]; split; [exact O2|]; split; [split; intro; congruence|]. cbn [m_set_idp m_add_total m_set_cm m_state]. rewrite Em. exact Logic.I.
    + refine (IHm _ _ _ _ _ _ _ _ _ _ _ _ _ _ _ _ Mn _ _ Rd Eo _ Vc _ H); [split; cbn; auto | | exact Es | exact S].
      split; [exact O1|]; split; [exact O2|]; split; [split; intro; congruence | exact Logic.I].
  - (* MSize *)
    cbn [opn] in S. rewrite Em in S. cbn [app] in S.
    rewrite ml_MSize in H by exact Em. cbv zeta in H.
    destruct (SizeParser_Feed (m_szp m) w) as [[[s k1] z] w1] eqn:I.
    assert (Sz : wfm (m_set_state MValidate (m_set_cm (mk_meta (ip_id (m_idp m)) (me_hsize (m_cm (m_set_szp z (m_add_total k1 (m_set_cm (cm_add_hsize k1 (m_cm m)) m))))) (size_value z)
               (me_pos (m_cm (m_set_szp z (m_add_total k1 (m_set_cm (cm_add_hsize k1 (m_cm m)) m)))))) (m_set_szp z (m_add_total k1 (m_set_cm (cm_add_hsize k1 (m_cm m)) m))))) ch
             \/ s <> kOkCompleted).
    { destruct (Z.eq_dec s kOkCompleted) as [->|]; [left|right; assumption]. split; [|exact Wc].
      cbn [m_set_state m_set_cm m_cm me_size]. exact (Size_nonneg _ _ _ _ _ _ I eq_refl). }
    apply SizeParser_tr in I. rewrite <- (St_eq _ _ I) in S.
    destruct (negb (s =? kOkCompleted)) eqn:E.
    + injection H as <- <- <- <- <- <-. split; [|split; [cbn [opn m_set_szp m_add_total m_set_cm m_state]; rewrite Em; exact S | intros ->; discriminate]].
      split; [exact O1|]; split; [exact O2|]; split; [split; intro; congruence|]. cbn [m_set_szp m_add_total m_set_cm m_state]. rewrite Em. exact Logic.I.
    + destruct Sz as [Sz | Sz]; [|exfalso; apply Sz; apply Z.eqb_eq, negb_false_iff; exact E].
      refine (IHm _ _ _ _ _ _ _ _ _ _ _ _ _ _ _ _ Mn Sz _ Rd Eo _ Vc _ H); [| exact Es | exact S].
      split; [exact O1|]; split; [exact O2|]; split; [split; intro; congruence | exact Logic.I].
  - (* MValidate *)
    cbn [opn] in S. rewrite Em in S. cbn [app] in S.
    rewrite ml_MValidate in H by exact Em. cbv zeta in H.
    assert (St0 : forall e, e <> 0 -> Some (e, nr, (m, ch, v), w) = Some (c, k, (m', ch', v'), w') ->
       okp sk0 base (PMaster n m' ch' v') /\ St w' = Some (opn (PMaster n m' ch' v') ++ base) /\ (c = 0 -> m_state m' = MEnd)).
    { intros e Ne Q. injection Q as <- <- <- <- <- <-. split; [exact O|]. split; [cbn [opn]; rewrite Em; exact S | contradiction]. }
    destruct (byte_cap m <? _); [apply St0 in H; [exact H | discriminate]|].
    destruct (lookup (me_id (m_cm m)) (children n)) as [cn|] eqn:L.
    + refine (IHm _ _ _ _ _ _ _ _ _ _ _ _ _ _ _ _ Mn _ _ Rd Eo _ Vc _ H); [split; cbn; auto | | exact Es | exact S].
      split; [exact O1|]; split; [exact O2|]; split; [split; intro; congruence | exact (lookup_fit _ _ _ L)].
    + destruct (m_size m =? _).
      * refine (IHm _ _ _ _ _ _ _ _ _ _ _ _ _ _ _ _ Mn _ _ Rd Eo _ Vc _ H); [split; cbn; auto | | exact Es | exact S].
        split; [exact O1|]; split; [exact O2|]; split; [split; intro; congruence | exact Logic.I].
      * destruct (_ =? _); [apply St0 in H; [exact H | discriminate]|].
        refine (IHm _ _ _ _ _ _ _ _ _ _ _ _ _ _ _ _ Mn _ _ Rd Eo _ Vc _ H); [split; cbn; auto | | exact Es | exact S].
        split; [exact O1|]; split; [exact O2|]; split; [split; intro; congruence | apply fits_none; reflexivity].
  - (* MAction *)
    cbn [opn] in S. rewrite Em in S. cbn [app] in S.
    rewrite ml_MAction in H by exact Em. cbv zeta in H.
    destruct (notify cb sk (EElement (m_cm m)) w) as [[s skip] w1] eqn:N.
    assert (S1 : St w1 = Some (own n m v ++ base) /\ (sk = true -> s = kOkCompleted /\ skip = true)).
    { destruct sk; [apply notify_sk in N; destruct N as (-> & -> & ->); auto|]. split; [|discriminate].
      eapply notify_st; [exact N | exact S|]. cbn [nest].
      rewrite own_out; [reflexivity | exact Mn | apply O1]. destruct sk0; [|reflexivity]. subst osk. discriminate. }
    destruct S1 as (S1 & S2). clear N.
    assert (Fi : okp sk0 base (PMaster n (m_set_state MInit (m_set_skip skip m)) ch v)).
    { split; [exact O1|]; split; [exact O2|]; split; [split; intro; congruence | exact O4]. }
    destruct (negb (s =? kOkCompleted)) eqn:E.
    + injection H as <- <- <- <- <- <-. split; [|split; [cbn [opn m_set_skip m_state]; rewrite Em; exact S1 | intros ->; discriminate]].
      split; [exact O1|]; split; [exact O2|]; split; [split; intro; congruence|]. cbn [m_set_skip m_state]. rewrite Em. exact O4.
    + destruct skip.
      * refine (IHm _ _ _ _ _ _ _ _ _ _ _ _ _ _ _ _ Mn _ _ Rd Eo _ Vc _ H).
        -- destruct (me_size (m_cm m) =? kUnknownElementSize); split; cbn; auto.
        -- destruct (me_size (m_cm m) =? kUnknownElementSize); [exact Fi|].
           split; [exact O1|]; split; [exact O2|]; split; [split; intro; congruence | apply fits_none; reflexivity].
        -- cbn. rewrite orb_true_r. reflexivity.
        -- exact S1.
      * refine (IHm _ _ _ _ _ _ _ _ _ _ _ _ _ _ _ _ Mn _ _ Rd Eo _ Vc _ H); [split; cbn; auto | exact Fi | | exact S1].
        cbn. destruct sk; [destruct (S2 eq_refl); discriminate|]. destruct osk; [discriminate | reflexivity].
  - (* MInit *)
    cbn [opn] in S. rewrite Em in S. cbn [app] in S.
    rewrite ml_MInit in H by exact Em. destruct ch as [|cn|]; try discriminate.
    destruct (parser_Init cn (m_cm m) (m_max m - m_total m)) as [s p] eqn:Ip.
    destruct (negb (s =? kOkCompleted)) eqn:E.
    + injection H as <- <- <- <- <- <-. split; [exact O|]. split; [cbn [opn]; rewrite Em; exact S | intros ->; discriminate].
    + assert (s = kOkCompleted) as -> by (apply Z.eqb_eq; destruct (s =? kOkCompleted); [reflexivity | discriminate]).
      pose proof (Init_okp _ _ _ _ Ip) as Fr. pose proof (Init_req _ _ _ _ Ip) as Rq.
      assert (Qt : opn p = []) by (apply (okp_quiet p []); apply Fr; discriminate).
      refine (IHm _ _ _ _ _ _ _ _ _ _ _ _ _ _ _ _ Mn _ _ Rd Eo _ Vc _ H).
      * split; cbn; [exact Wm|]. eapply Init_wf; eauto.
      * split; [exact O1|]; split; [exact O2|]; split; [split; intro; congruence|]. cbn [m_set_state m_state].
        destruct (waits n p v) eqn:Wt.
        -- split; [exact Fr|]. unfold waits in Wt. apply andb_prop in Wt. destruct Wt as (Wt & _).
           exact (start_req _ _ Wt).
        -- apply Fr. intro Q. rewrite Rq. apply orb_false_elim in Q. destruct Q as (Q & _). apply orb_false_elim in Q. destruct Q as (-> & Q).
           destruct (v_started v) eqn:Sv.
           ++ apply fits_ctx; [exact O4 | exact (O1 eq_refl) | exact Mn|]. intro B. split; [exact Sv|].
              destruct n; try (cbn in B; congruence); cbn in Q; exact Q.
           ++ destruct (begins n) eqn:B.
              ** assert (n = NVal VCluster) as ->.
                 { destruct n; try discriminate; [cbn in Rd; rewrite Sv in Rd; discriminate|].
                   destruct v0; try discriminate; [reflexivity|]. cbn in Rd; rewrite Sv in Rd; discriminate. }
                 unfold waits in Wt. rewrite Sv in Wt. cbn [negb] in Wt. rewrite andb_true_r in Wt.
                 rewrite (Init_start _ _ _ _ Ip O4 Wt). cbn [ctxr]. apply own_out; [exact Mn | exact (O1 eq_refl)].
              ** apply fits_ctx; [exact O4 | exact (O1 eq_refl) | exact Mn|]. congruence.
      * exact Es.
      * cbn [opn m_set_state m_state]. rewrite Qt. exact S.
  - (* MBody *)
    rewrite ml_MBody in H by exact Em. destruct ch as [| |p]; try discriminate. cbv zeta in H.
    cbn [opn] in S. rewrite Em in S.
    assert (Go : forall v0 w0, v_complete v0 = false -> notyet n v0 = false -> waits n p v0 = false ->
       sclause sk0 n v0 ->
       osk = sk0 || (sees n && v_skip v0) -> okp sk (own n m v0 ++ base) p -> St w0 = Some (opn p ++ own n m v0 ++ base) ->
       match feed cb f sk p w0 with
       | None => None
       | Some (s2, k, p2, w2) =>
           let m2 := m_add_total k m in
           let v2 := if wrapped n p && (s2 =? kOkCompleted) && negb (v_skip v0) && negb (was_skipped p2)
                     then mk_vst (v_val v0 ++ [(me_id (m_cm m), p_value p2)]) (v_skip v0) (v_complete v0) (v_started v0)
                     else v0 in
           if negb (s2 =? kOkCompleted) then Some (s2, nr + k, (m2, CAct p2, v2), w2)
           else mloop cb f n osk sk (m_set_state MParsed m2) (CAct p2) v2 (nr + k) w2
       end = Some (c, k, (m', ch', v'), w') ->
       okp sk0 base (PMaster n m' ch' v') /\ St w' = Some (opn (PMaster n m' ch' v') ++ base) /\ (c = 0 -> m_state m' = MEnd)).
    { intros v0 w0 Vc0 Rd0 Wt0 Sk0 Eo0 Ok0 S0 Q.
      destruct (feed cb f sk p w0) as [[[[s2 k2] p2] w2]|] eqn:F; [|discriminate].
      pose proof (proj1 (feed_keeps cb Pcb f) _ _ _ _ _ _ _ Wc F) as (_ & Tg & Wp2).
      destruct (IHf _ _ _ _ _ _ _ _ Wc Ok0 S0 F) as (F1 & F2).
      cbv zeta in Q. set (v2 := if wrapped n p && _ && _ && _ then _ else _) in Q.
      assert (V2 : v_skip v2 = v_skip v0 /\ v_complete v2 = v_complete v0 /\ v_started v2 = v_started v0)
        by (unfold v2; match goal with |- context [if ?b then _ else _] => destruct b end; auto).
      destruct V2 as (V21 & V22 & V23).
      assert (Ny : notyet n v2 = false) by (unfold notyet in *; rewrite V23; exact Rd0).
      assert (Ow : own n m v2 = own n m v0) by (unfold own; rewrite V21, V23; reflexivity).
      destruct (negb (s2 =? kOkCompleted)) eqn:E2.
      - injection Q as <- <- <- <- <- <-. destruct F2 as (F2 & F3); [apply neq_ok; exact E2|].
        split; [|split; [|intros ->; discriminate]].
        + split; [exact O1|]. split; [unfold sclause in *; rewrite V21, V22, V23; exact Sk0|]. split; [split; intro; congruence|].
          cbn [m_add_total m_state]. rewrite Em.
          replace (waits n p2 v2) with false.
          2:{ unfold waits in *. rewrite V23, (is_start_tag _ _ _ Tg). auto. }
          rewrite V21, <- Eo0. change (m_skip (m_add_total k2 m)) with (m_skip m). rewrite <- Es.
          change (own n (m_add_total k2 m) v2) with (own n m v2). rewrite Ow. exact F2.
        + cbn [opn m_add_total m_state]. rewrite Em. change (own n (m_add_total k2 m) v2) with (own n m v2). rewrite Ow, <- app_assoc. exact F3.
      - assert (s2 = 0) by (apply Z.eqb_eq, negb_false_iff; exact E2). subst s2. specialize (F1 eq_refl).
        refine (IHm _ _ _ _ _ _ _ _ _ _ _ _ _ _ _ _ Mn _ _ _ _ _ _ _ Q).
        + split; [exact Wm | exact Wp2].
        + split; [exact O1|]. split; [unfold sclause in *; rewrite V21, V22, V23; exact Sk0|]. split; [split; intro; congruence | exact Logic.I].
        + exact Ny.
        + rewrite V21. exact Eo0.
        + exact Es.
        + congruence.
        + cbn [opn m_set_state m_state app]. change (own n (m_set_state MParsed (m_add_total k2 m)) v2) with (own n m v2). rewrite Ow. exact F1. }
    destruct (wrapped n p && is_start n p && negb (v_started v)) eqn:Wt.
    + assert (Ww : waits n p v = true).
      { unfold waits. destruct (wrapped n p); [|discriminate]. cbn [andb] in Wt. exact Wt. }
      rewrite Ww in O4. destruct O4 as (Fr & Pr).
      assert (Nc : n = NVal VCluster).
      { unfold waits in Ww. apply andb_prop in Ww. destruct Ww as (Ww & _). exact (is_start_cluster _ _ Ww). }
      subst n.
      assert (Sv : v_started v = false) by (destruct (v_started v); [rewrite !andb_false_r in Wt; discriminate | reflexivity]).
      assert (Qt : opn p = []) by (apply (okp_quiet p []); apply Fr; discriminate).
      assert (Ov : own (NVal VCluster) m v = []) by (unfold own; cbn; rewrite Sv; reflexivity).
      rewrite Qt, Ov in S. cbn [app] in S.
      cbn [on_started] in H. destruct (notify cb sk _ w) as [[s1 skip] w1] eqn:N.
      destruct sk.
      * apply notify_sk in N. destruct N as (-> & -> & ->). cbn in H. injection H as <- <- <- <- <- <-.
        split; [|split; [|discriminate]].
        -- split; [exact O1|]. split; [split; [split; [reflexivity | discriminate] | reflexivity]|]. split; [split; cbn; congruence|]. rewrite Em. unfold waits. cbn [v_started negb].
           rewrite andb_false_r. apply Fr. cbn. rewrite orb_true_r. discriminate.
        -- cbn [opn]. rewrite Em, Qt. exact S.
      * assert (osk = false) as -> by (destruct osk; [discriminate | reflexivity]).
        symmetry in Eo. apply orb_false_elim in Eo. destruct Eo as (-> & Vs). cbn in Vs.
        assert (S1 : St w1 = Some (if (s1 =? 0) && negb skip then (KCluster, own_meta idCluster m) :: base else base)).
        { eapply notify_st; [exact N | exact S|]. cbn [nest]. unfold may_begin. specialize (O1 eq_refl). cbn in O1. rewrite O1. reflexivity. }
        change kOkCompleted with 0 in *. destruct (s1 =? 0) eqn:E1.
        -- cbn [negb] in H. destruct skip; cbn [negb] in H.
           ++ change (kSwitchToSkip =? 0) with false in H. cbn [negb] in H. injection H as <- <- <- <- <- <-.
              split; [|split; [|discriminate]].
              ** split; [exact O1|]. split; [split; [split; [reflexivity | discriminate] | reflexivity]|]. split; [split; cbn; congruence|]. rewrite Em. unfold waits. cbn [v_started negb].
                 rewrite andb_false_r. apply Fr. cbn. discriminate.
              ** cbn [opn]. rewrite Em, Qt. exact S1.
           ++ rewrite Z.eqb_refl in H. cbn [negb] in H. revert H. apply Go.
              ** exact Vc.
              ** reflexivity.
              ** unfold waits. cbn. rewrite andb_false_r. reflexivity.
              ** split; [split; [reflexivity | discriminate] | discriminate].
              ** reflexivity.
              ** apply Fr. intros _. rewrite Pr. specialize (O1 eq_refl). cbn in O1. unfold kinds in O1. cbn. rewrite O1. reflexivity.
              ** rewrite Qt. exact S1.
        -- cbn [negb] in H. rewrite E1 in H. cbn [negb] in H. injection H as <- <- <- <- <- <-.
           split; [|split; [|intros ->; discriminate]].
           ++ split; [exact O1|]. split; [split; [split; [reflexivity | discriminate] | discriminate]|]. split; [split; cbn; congruence|]. rewrite Em. unfold waits. cbn [v_started negb].
              replace (is_start (NVal VCluster) p) with true; [cbn [andb]; split; [exact Fr | exact Pr]|].
              unfold waits in Ww. apply andb_prop in Ww. symmetry. tauto.
           ++ cbn [opn]. rewrite Em, Qt. exact S1.
    + assert (Ww : waits n p v = false).
      { unfold waits. destruct (is_start n p) eqn:Si; [|reflexivity]. cbn [andb].
        replace (wrapped n p) with true in Wt; [exact Wt|]. pose proof (is_start_cluster _ _ Si) as ->.
        destruct p; try discriminate; reflexivity. }
      rewrite Ww in O4. cbn in H. revert H. apply Go; auto.
      * rewrite Es, Eo. exact O4.
      * rewrite <- app_assoc in S. exact S.
  - (* MParsed *)
    cbn [opn] in S. rewrite Em in S. cbn [app] in S.
    rewrite ml_MParsed in H by exact Em.
    destruct (byte_cap m <? m_total m).
    { injection H as <- <- <- <- <- <-. split; [exact O|]. split; [cbn [opn]; rewrite Em; exact S | discriminate]. }
    destruct (m_total m =? byte_cap m).
    { refine (IHm _ _ _ _ _ _ _ _ _ _ _ _ _ _ _ _ Mn _ _ Rd Eo _ Vc _ H); [split; cbn; auto | | exact Es | exact S].
      split; [exact O1|]; split; [exact O2|]; split; [split; intro; congruence | exact Logic.I]. }
    destruct ch as [| |p]; try discriminate. destruct (cached p) as [x|] eqn:Cd.
    + refine (IHm _ _ _ _ _ _ _ _ _ _ _ _ _ _ _ _ Mn _ _ Rd Eo _ Vc _ H); [split; cbn; [eapply cached_wf; eauto | exact Logic.I] | | rewrite orb_false_r; reflexivity | exact S].
      split; [exact O1|]; split; [exact O2|]; split; [split; intro; congruence | exact Logic.I].
    + refine (IHm _ _ _ _ _ _ _ _ _ _ _ _ _ _ _ _ Mn _ _ Rd Eo _ Vc _ H); [split; cbn; auto | | rewrite orb_false_r; reflexivity | exact S].
      split; [exact O1|]; split; [exact O2|]; split; [split; intro; congruence | exact Logic.I].
  - (* MEnd *)
    rewrite ml_MEnd in H by exact Em. injection H as <- <- <- <- <- <-. split; [exact O|]. split; [exact S | intros _; exact Em].
Qed.

Lemma may_begin_ctx : forall n k id base, begins n = Some (k, id) -> ctxr (req n) base -> may_begin k base = true.
Proof.
  intros n k id base B C. unfold begins in B. destruct n as [| | | | | | | | | | | | | | | | | | |y| |]; try discriminate.
  - injection B as <- _. cbn in C. unfold may_begin. rewrite C. reflexivity.
  - destruct y; try discriminate; injection B as <- _; cbn in C; unfold may_begin; rewrite C; reflexivity.
Qed.
Definition still (m : mst) : Prop := m_state m = MFirst \/ m_state m = MEnd.
Lemma still_opn : forall n m ch v, still m -> opn (PMaster n m ch v) = own n m v.
Proof. intros n m ch v [E | E]; cbn [opn]; rewrite E; reflexivity. Qed.
Lemma still_okp : forall sk base n m ch v, still m -> (sk = false -> ctxr (req n) base) -> is_master n = true -> sees n = true ->
  (sk = true -> begins n <> None -> v_started v = true -> v_skip v = true) -> (v_complete v = true -> m_state m = MEnd) ->
  okp sk base (PMaster n m ch v).
Proof.
  intros sk base n m ch v E A Mn Se B C. split; [exact A|]. split; [split; [split; [exact Mn | congruence] | exact B]|]. split; [split; [exact C | intros _; exact E]|].
  destruct E as [-> | ->]; exact I.
Qed.
Lemma begins_sees : forall n k id, begins n = Some (k, id) -> is_master n = true /\ sees n = true.
Proof. intros n k id H. destruct n; try discriminate; auto. Qed.
Lemma begin_st : forall sk base n m ch k id val w c s w1 vv cpl,
  still m -> (cpl = true -> m_state m = MEnd) -> begins n = Some (k, id) -> (sk = false -> ctxr (req n) base) -> St w = Some base ->
  notify cb sk (EBegin k (own_meta id m) val) w = (c, s, w1) ->
  (c = 0 -> okp sk base (PMaster n m ch (mk_vst vv s cpl true)) /\
            St w1 = Some (opn (PMaster n m ch (mk_vst vv s cpl true)) ++ base)) /\
  (c <> 0 -> forall s', okp sk base (PMaster n m ch (mk_vst vv s' cpl false)) /\
            St w1 = Some (opn (PMaster n m ch (mk_vst vv s' cpl false)) ++ base)).
Proof.
  intros sk base n m ch k id val w c s w1 vv cpl Sm Sc B C S N. destruct (begins_sees _ _ _ B) as (Bm & Bs).
  assert (F : sk = true -> c = 0 /\ s = true /\ w1 = w) by (intros ->; apply notify_sk in N; exact N).
  assert (G : sk = false -> St w1 = Some (if (c =? 0) && negb s then (k, own_meta id m) :: base else base)).
  { intros ->. eapply notify_st; [exact N | exact S|]. cbn [nest]. rewrite (may_begin_ctx _ _ _ _ B (C eq_refl)). reflexivity. }
  split.
  - intros ->. split; [apply still_okp; auto; intros Sk _ _; apply (F Sk)|]. rewrite still_opn by exact Sm. unfold own. rewrite B. cbn.
    destruct sk; [destruct (F eq_refl) as (_ & -> & ->); exact S|]. rewrite (G eq_refl). destruct s; reflexivity.
  - intros Nc s'. split; [apply still_okp; auto; discriminate|]. rewrite still_opn by exact Sm. unfold own. rewrite B. cbn.
    destruct sk; [destruct (F eq_refl) as (-> & _); congruence|]. rewrite (G eq_refl), (proj2 (Z.eqb_neq c 0) Nc). reflexivity.
Qed.

Lemma sees_skip : forall vn v, sees (NVal vn) && v_skip v = v_skip v. Proof. reflexivity. Qed.
Lemma eqk : forall c, negb (c =? kOkCompleted) = false -> c = 0.
Proof. intros c H. apply Z.eqb_eq, negb_false_iff. exact H. Qed.

(* the loop of a structure element that has begun *)
Lemma mid_st : forall f, clM f -> forall vn sk base m ch v w c k m' ch' v' w',
  wfm m ch -> okp sk base (PMaster (NVal vn) m ch v) -> notyet (NVal vn) v = false ->
  St w = Some (opn (PMaster (NVal vn) m ch v) ++ base) ->
  val_mid cb f vn sk m ch v w = Some (c, k, (m', ch', v'), w') ->
  okp sk base (PMaster (NVal vn) m' ch' v') /\ St w' = Some (opn (PMaster (NVal vn) m' ch' v') ++ base) /\
  (c = 0 -> m_state m' = MEnd).
Proof.
  intros f IHm vn sk base m ch v w c k m' ch' v' w' W O Ny S H. unfold val_mid in H.
  destruct (v_complete v) eqn:Vc.
  { injection H as <- <- <- <- <- <-. split; [exact O|]. split; [exact S|]. intros _. apply O. exact Vc. }
  destruct (mloop cb f _ _ _ m ch v 0 w) as [[[[c1 k1] [[m1 ch1] v1]] w1]|] eqn:E; [|discriminate].
  pose proof (proj2 (feed_keeps cb Pcb f) _ _ _ _ _ _ _ _ _ _ _ _ _ _ W (fun _ e => eq_trans (f_equal (orb sk) e) (orb_true_r sk)) (fun e => eq_trans (f_equal (fun b => b || m_skip m) e) eq_refl) E) as (V & W1).
  pose proof (IHm sk base (NVal vn) _ _ _ _ _ _ _ _ _ _ _ _ _ eq_refl W O Ny eq_refl eq_refl Vc S E) as R1.
  destruct (c1 =? kSwitchToSkip) eqn:Ec; [|injection H as <- <- <- <- <- <-; exact R1].
  apply Z.eqb_eq in Ec. subst c1. destruct R1 as (O1 & S1 & _).
  assert (Q : vn = VCluster /\ v_skip v1 = true).
  { destruct V as (_ & [(V1 & _ & _ & _ & V2) | [(V1 & _) | (V1 & _)]]); [split; [congruence | exact V2] | |]; exfalso; revert V1; clear; unfold plain, kSwitchToSkip; lia. }
  destruct Q as (-> & Vs).
  destruct (mloop cb f _ true true m1 ch1 v1 0 w1) as [[[[c2 k2] [[m2 ch2] v2]] w2]|] eqn:E2; [|discriminate].
  cbn in H. injection H as <- <- <- <- <- <-.
  refine (IHm sk base (NVal VCluster) _ _ _ _ _ _ _ _ _ _ _ _ _ eq_refl W1 O1 eq_refl _ eq_refl _ S1 E2).
  - rewrite sees_skip, Vs, orb_true_r. reflexivity.
  - destruct V as (V & _). rewrite V. exact Vc.
Qed.

Lemma report_ctx : forall n rk base, ctxr (req n) base ->
  (rk = KEbml -> n = NVal VEbml) -> (rk <> KEbml -> req n = Some [KSegment]) -> may_report rk base = true.
Proof.
  intros n rk base C A B. unfold may_report. destruct rk; try (rewrite B in C by discriminate; cbn in C; rewrite C; reflexivity).
  rewrite A in C by reflexivity. cbn in C. rewrite C. reflexivity.
Qed.

Lemma feed_nest : forall f, clF f -> clM f -> clF (S f).
Proof.
  intros f IHf IHm sk base p w c k p' w' W O S H.
  assert (Leaf : forall q q' w1 c, w_trace w1 = w_trace w -> opn q = [] -> opn q' = [] -> St w = Some (opn q ++ base) ->
            okp sk base q' -> fpost sk base c q' w1).
  { intros q q' w1 c1 T A B S1 O1. rewrite A in S1. rewrite <- (St_eq _ _ T) in S1. split; [intros _; exact S1|]. intros _. split; [exact O1|]. rewrite B. exact S1. }
  assert (Data : forall d rem c r w1, on_data cb sk d rem w = (c, r, w1) -> (in_block base = false -> may_read d base = true) ->
            (sk = false -> in_block base = false) -> St w = Some base -> St w1 = Some base).
  { intros d rem c1 r w1 D A B S1. eapply on_data_st; eauto. }
  destruct p as [sg s|s|s|s|s|str s|x rem|x rem|rem|simple s|s|n m ch v|q].
  - cbn [feed] in H. destruct (IntParser_Feed sg s w) as [[[c1 k1] s1] w1] eqn:E. injection H as <- <- <- <-.
    apply Int_tr in E. refine (Leaf _ _ _ _ E _ _ S O); reflexivity.
  - cbn [feed] in H. destruct (FloatParser_Feed s w) as [[[c1 k1] s1] w1] eqn:E. injection H as <- <- <- <-.
    apply Float_tr in E. refine (Leaf _ _ _ _ E _ _ S O); reflexivity.
  - cbn [feed] in H. destruct (DateParser_Feed s w) as [[[c1 k1] s1] w1] eqn:E. injection H as <- <- <- <-.
    apply Date_tr in E. refine (Leaf _ _ _ _ E _ _ S O); reflexivity.
  - cbn [feed] in H. destruct (IdElementParser_Feed s w) as [[[c1 k1] s1] w1] eqn:E. injection H as <- <- <- <-.
    apply IdEl_tr in E. refine (Leaf _ _ _ _ E _ _ S O); reflexivity.
  - cbn [feed] in H. destruct (BoolParser_Feed s w) as [[[c1 k1] s1] w1] eqn:E. injection H as <- <- <- <-.
    apply Bool_tr in E. refine (Leaf _ _ _ _ E _ _ S O); reflexivity.
  - cbn [feed] in H. destruct (ByteParser_Feed str s w) as [[[c1 k1] s1] w1] eqn:E. injection H as <- <- <- <-.
    apply Byte_tr in E. refine (Leaf _ _ _ _ E _ _ S O); reflexivity.
  - cbn [feed] in H. destruct (on_data cb sk (DVoid x) rem w) as [[c1 r1] w1] eqn:E. injection H as <- <- <- <-.
    apply Data in E; [| intro Q; cbn; rewrite Q; reflexivity | apply O | exact S]. split; [intros _; exact E | intros _; split; [exact O | exact E]].
  - cbn [feed] in H. destruct (on_data cb sk (DUnknown x) rem w) as [[c1 r1] w1] eqn:E. injection H as <- <- <- <-.
    apply Data in E; [| intro Q; cbn; rewrite Q; reflexivity | apply O | exact S]. split; [intros _; exact E | intros _; split; [exact O | exact E]].
  - cbn [feed] in H. destruct (SkipParser_Feed rem w) as [[[c1 k1] s1] w1] eqn:E. injection H as <- <- <- <-.
    apply Skip_tr in E. refine (Leaf _ _ _ _ E _ _ S O); reflexivity.
  - cbn [feed] in H. pose proof (block_st sk simple base s w O S) as B.
    destruct (BlockParser_Feed cb simple sk s w) as [[[c1 k1] s1] w1] eqn:E. injection H as <- <- <- <-.
    destruct B as (_ & B1 & B2). split.
    + intros ->. exact B2.
    + intro Nc. rewrite (proj2 (Z.eqb_neq c1 0) Nc) in B2. split; [|exact B2]. split; [apply O | exact (B1 Nc)].
  - cbn [feed] in H. destruct (VirtualBlockParser_Feed s w) as [[[c1 k1] s1] w1] eqn:E. injection H as <- <- <- <-.
    apply Virtual_tr in E. refine (Leaf _ _ _ _ E _ _ S O); reflexivity.
  - pose proof O as (O1 & ((Mn & Cc) & O2) & (O3 & O3') & O4). cbn [preq] in O1.
    destruct (is_value n) eqn:Ev; [|destruct (match n with NSegment => true | _ => false end) eqn:Es].
    + (* structures *)
      destruct n as [| | | | | | | | | | | | | | | | | | |vn| |]; try discriminate.
      rewrite fd_val' in H. destruct (val_pre cb vn sk m v w) as [[c0 v0] w0] eqn:Pre.
      assert (P : (c0 = 0 -> notyet (NVal vn) v0 = false) /\ okp sk base (PMaster (NVal vn) m ch v0) /\
                  St w0 = Some (opn (PMaster (NVal vn) m ch v0) ++ base)).
      { unfold val_pre in Pre. destruct vn; try (injection Pre as <- <- <-; split; [reflexivity|]; split; [exact O | exact S]).
        destruct (v_started v) eqn:Sv.
        { injection Pre as <- <- <-. split; [cbn; rewrite Sv; reflexivity|]. split; [exact O | exact S]. }
        cbn [on_started] in Pre. destruct (notify cb sk _ w) as [[c1 s1] w1] eqn:N.
        assert (Sm : still m) by (apply O3'; cbn; rewrite Sv; reflexivity).
        rewrite still_opn in S by exact Sm. unfold own in S. cbn [begins] in S. rewrite Sv in S. cbn [andb app] in S.
        destruct (begin_st sk base (NVal VBlockGroup) m ch _ _ _ _ _ _ _ (v_val v) (v_complete v) Sm O3 eq_refl O1 S N) as (B1 & B2).
        destruct (negb (c1 =? kOkCompleted)) eqn:Ec.
        - injection Pre as <- <- <-. apply neq_ok in Ec. split; [congruence|]. specialize (B2 Ec (v_skip v)).
          rewrite <- Sv in B2. destruct v; exact B2.
        - injection Pre as <- <- <-. apply eqk in Ec. split; [reflexivity | exact (B1 Ec)]. }
      destruct P as (P1 & P2 & P3).
      destruct (negb (c0 =? kOkCompleted)) eqn:Ec.
      { injection H as <- <- <- <-. apply neq_ok in Ec. split; [congruence | auto]. }
      apply eqk in Ec. subst c0. specialize (P1 eq_refl).
      destruct (val_mid cb f vn sk m ch v0 w0) as [[[[c2 k2] [[m2 ch2] v2]] w2]|] eqn:Mid; [|discriminate].
      apply (mid_st f IHm vn sk base) in Mid; auto. destruct Mid as (M1 & M2 & M3).
      cbn [option_map] in H. injection H as H. unfold val_post in H.
      destruct (negb (c2 =? kOkCompleted)) eqn:Ec.
      { quad H. apply neq_ok in Ec. split; [congruence | auto]. }
      apply eqk in Ec. subst c2. specialize (M3 eq_refl). cbv zeta in H. cbn [v_started v_val] in H.
      assert (Sm : still m2) by (right; exact M3). rewrite still_opn in M2 by exact Sm.
      destruct M1 as (_ & (_ & M4) & _ & _).
      destruct (if v_started v2 then _ else _) as [[c3 v3] w3] eqn:Post.
      assert (P : v_complete v3 = true /\ okp sk base (PMaster (NVal vn) m2 ch2 v3) /\
                  St w3 = Some (opn (PMaster (NVal vn) m2 ch2 v3) ++ base) /\ (c3 = 0 -> v_started v3 = true)).
      { destruct (v_started v2) eqn:Sv.
        - injection Post as <- <- <-. split; [reflexivity|]. split; [apply still_okp; auto|]. split; [|reflexivity].
          rewrite still_opn by exact Sm. unfold own in *. rewrite Sv in M2. exact M2.
        - destruct (begins (NVal vn)) as [[bk id]|] eqn:B.
          + assert (Q : exists val, on_started cb (NVal vn) sk m2 (mk_vst (v_val v2) (v_skip v2) true false) w2 = notify cb sk (EBegin bk (own_meta id m2) val) w2).
            { destruct vn; try discriminate; injection B as <- <-; eexists; reflexivity. }
            destruct Q as (val & Q).
            cbn [on_started v_val] in Q. rewrite Q in Post. destruct (notify cb sk _ w2) as [[c4 s4] w4] eqn:N. injection Post as <- <- <-.
            unfold own in M2. rewrite B, Sv in M2. cbn [andb app] in M2.
            destruct (begin_st sk base (NVal vn) m2 ch2 _ _ _ _ _ _ _ (v_val v2) true Sm (fun _ => M3) B O1 M2 N) as (B1 & B2).
            split; [reflexivity|]. change kOkCompleted with 0. destruct (c4 =? 0) eqn:E4.
            * apply Z.eqb_eq in E4. destruct (B1 E4) as (B3 & B4). split; [exact B3|]. split; [exact B4 | reflexivity].
            * apply Z.eqb_neq in E4. destruct (B2 E4 s4) as (B3 & B4). split; [exact B3|]. split; [exact B4 | congruence].
          + assert (Q : on_started cb (NVal vn) sk m2 (mk_vst (v_val v2) (v_skip v2) true false) w2 = (kOkCompleted, false, w2)).
            { destruct vn; try discriminate; reflexivity. }
            cbn [on_started v_val] in Q. rewrite Q in Post. injection Post as <- <- <-. split; [reflexivity|].
            split; [apply still_okp; auto; intros _ Bn; congruence|]. split; [|reflexivity].
            rewrite still_opn by exact Sm. unfold own in *. rewrite B in *. exact M2. }
      destruct P as (P4 & P5 & P6 & P7).
      destruct (negb (c3 =? kOkCompleted)) eqn:Ec.
      { quad H. apply neq_ok in Ec. split; [congruence | auto]. }
      apply eqk in Ec. subst c3. specialize (P7 eq_refl). pose proof P5 as (_ & (_ & P8) & _). rewrite still_opn in P6 by exact Sm.
      destruct (v_skip v3) eqn:Vs.
      { quad H. split; [|intro Nc; exfalso; apply Nc; reflexivity]. intros _. unfold own in P6. rewrite Vs, andb_false_r in P6. destruct (begins (NVal vn)) as [[? ?]|]; exact P6. }
      match type of H with (let '(_, _) := ?x in _) = _ => destruct x as [c5 w5] eqn:Oc end. injection H as E1 E2 E3 E4. subst c k p' w'.
      assert (En : forall bk id val, begins (NVal vn) = Some (bk, id) ->
                (let '(c, _, w1) := notify cb sk (EEnd bk (own_meta id m2) val) w3 in (c, w1)) = (c5, w5) ->
                fpost sk base c5 (PMaster (NVal vn) m2 ch2 v3) w5).
      { intros bk id val B Q. destruct (notify cb sk (EEnd bk (own_meta id m2) val) w3) as [[c6 s6] w6] eqn:N. injection Q as -> ->.
        destruct sk; [exfalso; assert (Z1 : false = true) by (apply P8; [reflexivity | congruence | exact P7]); discriminate Z1|].
        unfold own in P6. rewrite B, P7, Vs in P6. cbn [andb negb app] in P6.
        assert (S5 : St w5 = Some (if c5 =? 0 then base else (bk, own_meta id m2) :: base)).
        { eapply notify_st; [exact N | exact P6|]. cbn [nest]. rewrite bkind_eqb_refl, meta_eqb_refl. reflexivity. }
        split; [intros ->; exact S5|]. intro Nc. split; [exact P5|]. rewrite still_opn by exact Sm. unfold own. rewrite B, P7, Vs.
        rewrite (proj2 (Z.eqb_neq c5 0) Nc) in S5. exact S5. }
      assert (Rp : forall rk x val, begins (NVal vn) = None -> (rk = KEbml -> vn = VEbml) -> (rk <> KEbml -> req (NVal vn) = Some [KSegment]) ->
                (let '(c, _, w1) := notify cb sk (EReport rk x val) w3 in (c, w1)) = (c5, w5) ->
                fpost sk base c5 (PMaster (NVal vn) m2 ch2 v3) w5).
      { intros rk x val B A1 A2 Q. unfold own in P6. rewrite B in P6. cbn [app] in P6.
        destruct (notify cb sk (EReport rk x val) w3) as [[c6 s6] w6] eqn:N. injection Q as -> ->.
        assert (S5 : St w5 = Some base).
        { destruct sk; [apply notify_sk in N; destruct N as (_ & _ & ->); exact P6|].
          eapply notify_st; [exact N | exact P6|]. cbn [nest]. rewrite (report_ctx (NVal vn) rk base (O1 eq_refl)); auto. intro Q. rewrite A1; auto. }
        split; [intros _; exact S5|]. intros _. split; [exact P5|]. rewrite still_opn by exact Sm. unfold own. rewrite B. exact S5. }
      assert (No : begins (NVal vn) = None -> (kOkCompleted, w3) = (c5, w5) -> fpost sk base c5 (PMaster (NVal vn) m2 ch2 v3) w5).
      { intros B Q. injection Q as <- <-. unfold own in P6. rewrite B in P6. split; [intros _; exact P6 | intro Nc; exfalso; apply Nc; reflexivity]. }
      destruct vn; cbn [on_completed] in Oc; cbv zeta in Oc; try (apply No; [reflexivity | exact Oc]);
        try (eapply En; [reflexivity | exact Oc]); (eapply Rp; [reflexivity | | | exact Oc]; [congruence | reflexivity || congruence]).
    + (* Segment *)
      destruct n as [| | | | | | | | | | | | | | | | | | |vn| |]; try discriminate.
      rewrite fd_seg' in H. destruct (seg_pre cb sk m v w) as [[c0 v0] w0] eqn:Pre.
      assert (P : (c0 = 0 -> v_started v0 = true) /\ okp sk base (PMaster NSegment m ch v0) /\
                  St w0 = Some (opn (PMaster NSegment m ch v0) ++ base)).
      { unfold seg_pre in Pre. destruct (v_started v) eqn:Sv.
        { injection Pre as <- <- <-. split; [intros _; exact Sv|]. split; [exact O | exact S]. }
        destruct (notify cb sk _ w) as [[c1 s1] w1] eqn:N.
        assert (Sm : still m) by (apply O3'; cbn; rewrite Sv; reflexivity).
        rewrite still_opn in S by exact Sm. unfold own in S. cbn [begins] in S. rewrite Sv in S. cbn [andb app] in S.
        destruct (begin_st sk base NSegment m ch _ _ _ _ _ _ _ (v_val v) (v_complete v) Sm O3 eq_refl O1 S N) as (B1 & B2).
        destruct (negb (c1 =? kOkCompleted)) eqn:Ec.
        - injection Pre as <- <- <-. apply neq_ok in Ec. split; [congruence|]. exact (B2 Ec s1).
        - injection Pre as <- <- <-. apply eqk in Ec. split; [reflexivity | exact (B1 Ec)]. }
      destruct P as (P1 & P2 & P3).
      destruct (negb (c0 =? kOkCompleted)) eqn:Ec.
      { injection H as <- <- <- <-. apply neq_ok in Ec. split; [congruence | auto]. }
      apply eqk in Ec. subst c0. specialize (P1 eq_refl).
      destruct (if v_complete v0 then _ else _) as [[[[c2 k2] [[m2 ch2] v2]] w2]|] eqn:Mid; [|discriminate].
      assert (Q : okp sk base (PMaster NSegment m2 ch2 v2) /\ St w2 = Some (opn (PMaster NSegment m2 ch2 v2) ++ base) /\
                  (c2 = 0 -> m_state m2 = MEnd /\ v_skip v2 = v_skip v0 /\ v_started v2 = true)).
      { destruct (v_complete v0) eqn:Vc.
        - injection Mid as <- <- <- <- <- <-. split; [exact P2|]. split; [exact P3|]. intros _. split; [apply P2; exact Vc | auto].
        - pose proof (proj2 (feed_keeps cb Pcb f) _ _ _ _ _ _ _ _ _ _ _ _ _ _ W (fun (e : NSegment = NVal VCluster) _ => ltac:(discriminate e)) (fun e => eq_trans (f_equal (fun b => b || m_skip m) e) eq_refl) Mid) as (V & W1).
          assert (Ny : notyet NSegment v0 = false) by (cbn; rewrite P1; reflexivity).
          pose proof (IHm sk base NSegment _ _ _ _ _ _ _ _ _ _ _ _ _ eq_refl W P2 Ny eq_refl eq_refl Vc P3 Mid) as (R1 & R2 & R3).
          split; [exact R1|]. split; [exact R2|]. intro E. split; [exact (R3 E)|]. subst c2.
          destruct V as (_ & [(_ & V & _) | [(V & _) | (_ & V1 & V2)]]); [discriminate | exfalso; revert V; clear; lia | auto]. }
      destruct Q as (Q1 & Q2 & Q3). cbn [option_map] in H. injection H as H. unfold seg_post in H.
      destruct (negb (c2 =? kOkCompleted)) eqn:Ec.
      { quad H. apply neq_ok in Ec. split; [congruence | auto]. }
      apply eqk in Ec. subst c2. destruct (Q3 eq_refl) as (Q4 & Q5 & Q6).
      assert (Sm : still m2) by (right; exact Q4). rewrite still_opn in Q2 by exact Sm.
      destruct Q1 as (_ & (_ & Q7) & _ & _).
      destruct (notify cb (sk || v_skip v0) _ w2) as [[c3 s3] w3] eqn:N. injection H as E1 E2 E3 E4. subst c k p' w'.
      unfold own in Q2. cbn [begins] in Q2. rewrite Q6, Q5 in Q2.
      destruct (sk || v_skip v0) eqn:Es0.
      * apply notify_sk in N. destruct N as (-> & _ & ->). split; [|intro Nc; exfalso; apply Nc; reflexivity]. intros _.
        assert (v_skip v0 = true) as Vs.
        { destruct sk; [|exact Es0]. rewrite <- Q5. apply Q7; [reflexivity | discriminate | exact Q6]. }
        rewrite Vs in Q2. exact Q2.
      * apply orb_false_elim in Es0. destruct Es0 as (-> & Vs). rewrite Vs in Q2. cbn [andb negb app] in Q2.
        assert (S5 : St w3 = Some (if c3 =? 0 then base else (KSegment, own_meta idSegment m2) :: base)).
        { eapply notify_st; [exact N | exact Q2|]. cbn [nest]. rewrite bkind_eqb_refl, meta_eqb_refl. reflexivity. }
        split; [intros ->; exact S5|]. intro Nc. rewrite (proj2 (Z.eqb_neq c3 0) Nc) in S5.
        split; [apply still_okp; auto; discriminate|]. rewrite still_opn by exact Sm. unfold own. cbn [begins v_started v_skip].
        rewrite Q6, Q5, Vs. exact S5.
    + (* containers *)
      assert (Hn : n <> NSegment) by (intros ->; discriminate). rewrite fd_other in H by assumption.
        destruct (mloop cb f n sk _ m ch v 0 w) as [[[[c1 k1] [[m1 ch1] v1]] w1]|] eqn:E; [|discriminate]. injection H as <- <- <- <-.
        assert (B : begins n = None) by (destruct n; try reflexivity; discriminate).
        assert (Vc : v_complete v = false) by (apply Cc; destruct n; try reflexivity; discriminate).
        assert (Ny : notyet n v = false) by (destruct n; try reflexivity; discriminate).
        assert (Eo : sk = sk || (sees n && v_skip v)) by (destruct n; try discriminate; cbn; rewrite orb_false_r; reflexivity).
        pose proof (IHm sk base n _ _ _ _ _ _ _ _ _ _ _ _ _ Mn W O Ny Eo eq_refl Vc S E) as (R1 & R2 & R3).
        split; [|intros _; split; [exact R1 | exact R2]]. intros ->. specialize (R3 eq_refl).
        rewrite still_opn in R2 by (right; exact R3). unfold own in R2. rewrite B in R2. exact R2.
  - cbn [feed] in H. destruct (feed cb f sk q w) as [[[[c1 k1] q1] w1]|] eqn:E; [|discriminate]. injection H as <- <- <- <-.
    destruct O as (O1 & O2). apply (IHf sk base) in E; auto. destruct E as (E1 & E2). split; [exact E1|].
    intro Nc. destruct (E2 Nc) as (E3 & E4). split; [split; [exact O1 | exact E3] | exact E4].
Qed.

Theorem tree_nests : forall f, clF f /\ clM f.
Proof.
  induction f as [|f (A & B)].
  - split; repeat intro; discriminate.
  - split; [apply feed_nest | apply mloop_nest]; assumption.
Qed.

(* ---------- the document ---------- *)
Definition topfit (cn : node) : Prop := match req cn with Some ks => ks = [] | None => True end.
Definition okd (d : dst) : Prop :=
  match d_state d with
  | DBody => match d_child d with CAct p => okp (d_skip d) [] p | _ => True end
  | DAction | DInit => match d_child d with CSel cn => topfit cn | _ => True end
  | _ => True
  end.
Definition opd (d : dst) : stack :=
  match d_state d with DBody => match d_child d with CAct p => opn p | _ => [] end | _ => [] end.

(* (between seeks) *)
Theorem doc_nests : forall f sk d w c d' w', wfd d -> okd d -> sk = d_skip d -> d_seek d = false -> St w = Some (opd d) ->
  dloop cb f sk d w = Some (c, d', w') -> okd d' /\ St w' = Some (opd d') /\ (c = 0 -> d_state d' = DEnd) /\ d_seek d' = false.
Proof.
  induction f as [|f IH]; intros sk d w c d' w' W O Es Ek S H; [discriminate|]. cbn [dloop] in H.
  unfold okd in O. unfold opd in S. destruct (d_state d) eqn:Ed.
  - refine (IH _ _ _ _ _ _ _ _ _ _ _ H); [exact W | exact I | exact Es | exact Ek | exact S].
  - destruct (IdParser_Feed (d_idp d) w) as [[[s k1] i] w1] eqn:E. apply IdParser_tr in E. rewrite <- (St_eq _ _ E) in S. cbv zeta in H.
    destruct (negb (s =? kOkCompleted)) eqn:Ec.
    + destruct (_ && _).
      * refine (IH _ _ _ _ _ _ _ _ _ _ _ H); [exact W | exact I | exact Es | exact Ek | exact S].
      * injection H as <- <- <-. split; [exact I|]. split; [exact S|]. split; [intro Q; apply neq_ok in Ec; contradiction | exact Ek].
    + refine (IH _ _ _ _ _ _ _ _ _ _ _ H); [exact W | exact I | exact Es | exact Ek | exact S].
  - destruct (SizeParser_Feed (d_szp d) w) as [[[s k1] z] w1] eqn:E. pose proof (Size_nonneg _ _ _ _ _ _ E) as Nn.
    apply SizeParser_tr in E. rewrite <- (St_eq _ _ E) in S. cbv zeta in H.
    destruct (negb (s =? kOkCompleted)) eqn:Ec.
    + injection H as <- <- <-. split; [exact I|]. split; [exact S|]. split; [intro Q; apply neq_ok in Ec; contradiction | exact Ek].
    + refine (IH _ _ _ _ _ _ _ _ _ _ _ H); [| exact I | exact Es | exact Ek | exact S].
      apply eqk in Ec. destruct W as (W1 & W2). split; [cbn; apply Nn; exact Ec | exact W2].
  - cbv zeta in H. rewrite Ek in H.
    repeat match type of H with context [if ?b then _ else _] => destruct b end;
      try (refine (IH _ _ _ _ _ _ _ _ _ _ _ H); [destruct W; split; [assumption | exact I] | cbn; exact I || reflexivity | exact Es | first [exact Ek | reflexivity] | exact S]).
    injection H as <- <- <-. unfold okd, opd. rewrite Ed. split; [exact I|]. split; [exact S|]. split; [discriminate | exact Ek].
  - destruct (notify cb sk (EElement (d_cm d)) w) as [[s skip] w1] eqn:N. cbv zeta in H.
    assert (S1 : St w1 = Some [] /\ (sk = true -> s = kOkCompleted /\ skip = true)).
    { destruct sk; [apply notify_sk in N; destruct N as (-> & -> & ->); auto|]. split; [|discriminate].
      eapply notify_st; [exact N | exact S | reflexivity]. }
    destruct S1 as (S1 & S2).
    destruct (negb (s =? kOkCompleted)) eqn:Ec.
    + injection H as <- <- <-. split; [exact O|]. split; [exact S1|]. split; [intro Q; apply neq_ok in Ec; contradiction | exact Ek].
    + destruct skip.
      * destruct (me_size (d_cm d) =? kUnknownElementSize).
        -- refine (IH _ _ _ _ _ _ _ _ _ _ _ H); [exact W | exact O | reflexivity | exact Ek | exact S1].
        -- refine (IH _ _ _ _ _ _ _ _ _ _ _ H); [destruct W; split; [assumption | exact I] | exact I | reflexivity | exact Ek | exact S1].
      * refine (IH _ _ _ _ _ _ _ _ _ _ _ H); [exact W | exact O | | exact Ek | exact S1].
        cbn. destruct sk; [destruct (S2 eq_refl); discriminate | reflexivity].
  - destruct (d_child d) as [|cn|] eqn:Ch; try discriminate.
    destruct (parser_Init cn (d_cm d) (me_size (d_cm d))) as [s p] eqn:Ip.
    destruct (negb (s =? kOkCompleted)) eqn:Ec.
    + injection H as <- <- <-. unfold okd, opd. rewrite Ed, Ch. split; [exact O|]. split; [exact S|]. split; [intro Q; apply neq_ok in Ec; contradiction | exact Ek].
    + apply eqk in Ec. subst s. pose proof (Init_okp _ _ _ _ Ip) as Fr. pose proof (Init_req _ _ _ _ Ip) as Rq.
      assert (Qt : opn p = []) by (apply (okp_quiet p []); apply Fr; discriminate).
      destruct W as (W1 & W2).
      refine (IH _ _ _ _ _ _ _ _ _ _ _ H).
      * split; [exact W1|]. cbn. eapply Init_wf; eauto.
      * cbn. apply Fr. intros _. rewrite Rq. unfold topfit in O. destruct (req cn); cbn; [rewrite O; reflexivity | reflexivity].
      * exact Es.
      * exact Ek.
      * cbn. rewrite Qt. exact S.
  - destruct (d_child d) as [| |p] eqn:Ch; try discriminate.
    destruct (feed cb f sk p w) as [[[[s k] p1] w1]|] eqn:F; [|discriminate].
    destruct W as (W1 & W2). rewrite Ch in W2. cbn in W2.
    pose proof (proj1 (feed_keeps cb Pcb f) _ _ _ _ _ _ _ W2 F) as (_ & _ & Wp).
    rewrite <- Es in O. destruct (proj1 (tree_nests f) sk [] p w s k p1 w1 W2 O) as (F1 & F2); [rewrite app_nil_r; exact S | exact F|].
    destruct (negb (s =? kOkCompleted)) eqn:Ec.
    + injection H as <- <- <-. apply neq_ok in Ec. destruct (F2 Ec) as (F3 & F4). rewrite app_nil_r in F4.
      unfold okd, opd. cbn. rewrite Ed, <- Es. split; [exact F3|]. split; [exact F4|]. split; [contradiction | exact Ek].
    + apply eqk in Ec. specialize (F1 Ec). cbv zeta in H.
      assert (Wc : 0 <= me_size (match cached p1 with Some x => x | None => mk_meta (me_id (d_cm d)) 0 (me_size (d_cm d)) (me_pos (d_cm d)) end)).
      { destruct (cached p1) eqn:Cd; [eapply cached_wf; eauto | exact W1]. }
      destruct (cached p1); refine (IH _ _ _ _ _ _ _ _ _ _ _ H); try exact I; try reflexivity; try (split; [exact Wc | exact I]); first [exact Ek | exact F1].
  - injection H as <- <- <-. unfold okd, opd. rewrite Ed. split; [exact I|]. split; [exact S|]. split; [reflexivity | exact Ek].
Qed.
End nest.
