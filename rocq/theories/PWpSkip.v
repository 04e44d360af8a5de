(* Proofs about the callback parser: any selection of the elements of a well-formed
   document can be skipped. *)
From Coq Require Import ZifyBool ZifyNat.
From Verif Require Import Base EbmlSpec LacingSpec WpSpec WpDocSpec PWpDoc PWpDoc2.

Section sel.
Variable skip : meta -> bool.
Hypothesis known : forall m, skip m = true -> me_size m <> kUnknownElementSize.

Lemma ends_metas : forall a b, map i_meta a = map i_meta b -> ends_cluster a -> ends_cluster b.
Proof.
  intros [|i a] [|j b] E H; try discriminate E; [exact I|]. cbn [map] in E. injection E as E1 E2. cbn [ends_cluster] in *.
  rewrite <- E1. destruct H as (H1 & H2 & H3). split; [exact H1|]. split; [exact H2|].
  destruct H3 as [H3 | H3]; [left; exact H3 | right]. intro Q. subst b. destruct a; [congruence | discriminate E2].
Qed.

Lemma selections :
  (forall d parent closed m bs evs val, element d parent closed m bs evs val ->
     (exists evs' val', element_skip skip d parent closed m bs evs' val') /\
     (closed = true \/ type_in parent (me_id m) <> None \/ me_id m = Void)) /\
  (forall d parent closed pos bs items, elements d parent closed pos bs items ->
     exists items', elements_skip skip d parent closed pos bs items' /\ map i_meta items' = map i_meta items).
Proof.
  apply document_mind.
  - intros. split; [do 2 eexists; eapply e_scalar; eassumption | right; left; congruence].
  - intros. split; [do 2 eexists; eapply e_void; eassumption | right; right; assumption].
  - intros. split; [do 2 eexists; eapply e_unknown; eassumption | left; reflexivity].
  - intros. split; [do 2 eexists; eapply e_block; eassumption | right; left; congruence].
  - intros. split; [do 2 eexists; eapply e_virtual; eassumption | right; left; congruence].
  - intros d d' parent closed m bs items Ty In _ (items' & H & _).
    split; [do 2 eexists; eapply e_master; eassumption | right; left; congruence].
  - intros. exists []. split; [apply els_none | reflexivity].
  - intros d parent closed pos id ib w payload rest events v items Hi Hf _ _ [(evs' & val' & El) Op] _ (items' & H & E).
    destruct (skip (mk_meta id (zlen ib + w) (zlen payload) pos)) eqn:Ek.
    + eexists. split; [apply els_skipped; eassumption|]. cbn [map i_meta]. rewrite E. reflexivity.
    + eexists. split; [eapply els_sized; eassumption|]. cbn [map i_meta]. rewrite E. reflexivity.
  - intros d parent closed pos id ib w payload rest events v items Hi Hw NE Ends _ _ [(evs' & val' & El) Op] _ (items' & H & E).
    eexists. split; [eapply els_unsized; [exact Hi | exact Hw | exact NE | | | exact El | exact H]|].
    + destruct Ends as [[-> ->] | [-> Q]]; [left | right]; (split; [reflexivity|]).
      * destruct items'; [reflexivity | discriminate E].
      * apply (ends_metas items); [symmetry; exact E | exact Q].
    + destruct (skip (mk_meta id (zlen ib + w) kUnknownElementSize pos)) eqn:Ek; [|reflexivity].
      exfalso. exact (known _ Ek eq_refl).
    + cbn [map i_meta]. rewrite E. reflexivity.
  - intros. discriminate.
Qed.

Lemma document_selected : forall bs events, document bs events -> exists events', document_skip skip bs events'.
Proof.
  intros bs events (items & H & _). destruct (proj2 selections _ _ _ _ _ _ H) as (items' & H' & _).
  exists (item_events items'), items'. split; [exact H' | reflexivity].
Qed.
End sel.
