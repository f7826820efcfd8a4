(** The crate's own collision check decides, after every history of a problem, whether a layout is a packing. *)
From Coq Require Import List Bool Arith ZArith Lia Permutation.
From Verif Require Import Base Num GeoModel HazardModel QTModel TransfModel HpgModel CdeModel CdeSpec
  PolyModel SlotMapModel LayoutModel ProblemModel ProblemSpec PanicSpec LbfModel BaseProofs SlotMapProofs CdeHistProofs LayoutProofs ProblemProofs
  ProblemOpsProofs ProblemThmProofs StripProofs MirrorProofs Instances PanicProofs PanicPlainProofs PanicStripProofs RigidProofs XformProofs RegionProofs GeoPrimProofs GeoRectProofs CdeGeoProofs CdeGeoThmProofs HpgSpec HpgRegProofs HpgGenProofs HpgHistProofs HpgCellProofs HpgThmProofs LbfSpec LbfProofs LbfRunProofs LbfHistProofs LbfSpProofs
  AssertModel AssertLayoutModel SelfCheckLayoutSpec SelfCheckLayoutProofs PanicGridProofs HistPackSpec HistPackProofs AgainTotalProofs.
From Coq Require Import Reals Lra.
From Verif Require Import GeoModel HazardModel QTModel TransfModel HpgModel CdeModel CdeSpec GeoSpec PlaceSpec HpgSpec ShapeSpec LbfModel LbfSpec PanicSpec AssertLayoutModel SelfCheckLayoutSpec HistPackSpec CertSpec.
Import ListNotations.
Local Open Scope R_scope.

Section C.
  Variable M : R.
  #[local] Instance NCT : Num R := RNumT Reqb M.
  #[local] Existing Instance RTrig.
  Context {ED : EqD (dtransf R)} {BS : BSearch}.
  Hypothesis BSok : bsearch_ok BS.
  Local Notation dtransf := (dtransf R).
  Local Notation layout := (layout R dtransf).
  Local Notation pitem := (pitem R dtransf).

  (** every placed item carries the base quality of its kind *)
  Definition FQ (items : list (item R * nat)) (ps : list pitem) : Prop :=
    Forall (fun p => exists it q, nth_error items (pi_item p) = Some (it, q) /\ pi_filter p = it_quality it) ps.
  Lemma FQ_perm : forall items a b, Permutation a b -> FQ items a -> FQ items b.
  Proof. intros items a b P H. unfold FQ in *. rewrite Forall_forall in *. intros p Hp. apply H. apply (Permutation_in _ (Permutation_sym P)). exact Hp. Qed.
  Lemma LI_sm : forall items l, GL M items l -> sm_ok (ly_items l).
  Proof. intros items l ((_ & (S1 & _) & _) & _). exact S1. Qed.

  Definition KL items (l : layout) : Prop := GL M items l /\ FQ items (sm_values (ly_items l)).
  Definition KS items (s : lsnap R dtransf) : Prop := GS M items s /\ FQ items (sm_values (ls_items s)).

  Section K.
    Variable items : list (item R * nat).
    Hypothesis Snd : Forall (fun x => sound_item M (fst x)) items.
    Lemma KL_new : forall id (b : bin R dtransf), good_bin b -> bin_fine b -> KL items (layout_new id b).
    Proof. intros id b H K. split; [exact (GL_new M BSok items id b H K)|constructor]. Qed.
    Lemma KL_clone : forall l id, KL items l -> KL items (clone_with_id l id).
    Proof. intros l id (H & K). split; [apply GL_clone; exact H|exact K]. Qed.
    Lemma KL_place : forall l it q d ptr, KL items l -> nth_error items (it_id it) = Some (it, q) -> ~ In (it_id it, d) (placed l) ->
      exists k l', layout_place l it d ptr = Ok (k, l') /\ KL items l' /\ ly_bin l' = ly_bin l.
    Proof.
      intros l it q d ptr (H & K) E Nd. destruct (GL_place M BSok items Snd l it q d ptr H E Nd) as (k & l' & El & H' & _). exists k, l'. split; [exact El|].
      destruct (place_content _ _ _ _ _ _ El) as (_ & Eb & Ei). split; [|exact Eb]. split; [exact H'|].
      pose proof (SlotMapProofs.insert_perm (ly_items l) (pi_new it d ptr) (LI_sm _ _ H)) as P.
      assert (Ei' : sm_insert (ly_items l) (pi_new it d ptr) = (k, ly_items l')) by exact Ei. rewrite Ei' in P. cbn [snd] in P.
      eapply FQ_perm; [exact (Permutation_sym P)|]. constructor; [|exact K]. exists it, q. split; [exact E|reflexivity].
    Qed.
    Lemma KL_remove : forall l k b p m, KL items l -> sm_remove (ly_items l) k = Some (p, m) ->
      exists l', layout_remove l k b = Ok (p, l') /\ KL items l' /\ ly_bin l' = ly_bin l.
    Proof.
      intros l k b p m (H & K) Er. destruct (GL_remove M BSok items l k b p m H Er) as (l' & El & H' & Eb & _). exists l'. split; [exact El|]. split; [|exact Eb]. split; [exact H'|].
      destruct (remove_content _ _ _ _ _ El) as (_ & _ & Er'). pose proof (SlotMapProofs.remove_perm _ _ _ _ (LI_sm _ _ H) Er') as P.
      pose proof (FQ_perm _ _ _ P K) as K'. exact (Forall_inv_tail K').
    Qed.
    Lemma KL_flush : forall l, KL items l -> exists l', layout_flush l = Ok l' /\ KL items l' /\ ly_bin l' = ly_bin l.
    Proof.
      intros l (H & K). destruct (GL_flush M BSok items l H) as (l' & El & H' & Eb & _). exists l'. split; [exact El|]. split; [|exact Eb]. split; [exact H'|].
      pose proof (flush_content _ _ El) as C. injection C as _ _ C. rewrite C. exact K.
    Qed.
    Lemma KL_snapshot : forall l, KL items l -> exists s l', layout_snapshot l = Ok (s, l') /\ KL items l' /\ KS items s /\ ly_bin l' = ly_bin l /\ ls_bin s = ly_bin l.
    Proof.
      intros l (H & K). destruct (GL_snapshot M BSok items l H) as (s & l' & El & H' & Hs & Eb & Es & _). exists s, l'. split; [exact El|].
      destruct (snapshot_content _ _ _ El) as (C1 & C2 & _). injection C1 as _ _ C1. injection C2 as _ _ C2.
      split; [split; [exact H'|rewrite C1; exact K]|]. split; [split; [exact Hs|rewrite C2; exact K]|]. auto.
    Qed.
    Lemma KL_restore : forall l s, KL items l -> KS items s -> ly_id l = ls_id s -> ly_bin l = ls_bin s ->
      exists l', layout_restore l s = Ok l' /\ KL items l' /\ ly_bin l' = ly_bin l.
    Proof.
      intros l s (H & _) (Hs & K) X Y. destruct (GL_restore M BSok items l s H Hs X Y) as (l' & El & H' & Eb & _). exists l'. split; [exact El|]. split; [|exact Eb]. split; [exact H'|].
      destruct (restore_content _ _ _ El) as (_ & C). injection C as _ _ C. rewrite C. exact K.
    Qed.
    Lemma KL_from_snapshot : forall s, KS items s -> exists l', layout_from_snapshot s = Ok l' /\ KL items l' /\ ly_bin l' = ls_bin s.
    Proof.
      intros s (Hs & K). destruct (GL_from_snapshot M BSok items s Hs) as (l' & El & H' & Eb & _). exists l'. split; [exact El|]. split; [|exact Eb]. split; [exact H'|].
      pose proof (from_snapshot_content _ _ El) as C. injection C as _ _ C. rewrite C. exact K.
    Qed.

    (** *** what the check says about such a layout *)
    Lemma on_covers : forall l p, KL items l -> In p (sm_values (ly_items l)) -> exists it q, nth_error items (pi_item p) = Some (it, q) /\ pi_filter p = it_quality it /\
      forall x, on_item p x <-> covers items (pi_item p, pi_dt p) x.
    Proof.
      intros l p ((L & _ & Kn & _) & K) Hp. unfold FQ in K. rewrite Forall_forall in K, Kn. destruct (K p Hp) as (it & q & E & F). exists it, q. split; [exact E|]. split; [exact F|].
      destruct (known_facts M items Snd l p L Hp (Kn p Hp)) as (it' & q' & E' & A). rewrite E in E'. injection E' as <- <-.
      intros x. unfold on_item, covers. cbn [fst snd]. rewrite A. split.
      - intros Rx. exists it, q. split; [exact E|exact Rx].
      - intros (it2 & q2 & E2 & Rx). rewrite E in E2. injection E2 as <- <-. exact Rx.
    Qed.
    Lemma in_placed : forall (l : layout) x, In x (placed l) <-> exists p, In p (sm_values (ly_items l)) /\ x = (pi_item p, pi_dt p).
    Proof. intros l x. unfold placed. rewrite in_map_iff. split; intros (p & A & B); exists p; auto. Qed.
    Lemma same_item : forall l p p', LI (item_shape items) l -> In p (sm_values (ly_items l)) -> In p' (sm_values (ly_items l)) -> (pi_item p, pi_dt p) = (pi_item p', pi_dt p') -> p = p'.
    Proof.
      intros l p p' (_ & (_ & _ & S3) & _) Hp Hp' E.
      assert (Q : pi_entity p = pi_entity p') by (injection E as E1 E2; unfold pi_entity; rewrite E1, E2; reflexivity). clear - S3 Hp Hp' Q.
      induction (sm_values (ly_items l)) as [|z r IH]; [contradiction|]. cbn [map] in S3. apply NoDup_cons_iff in S3 as (N1 & N2). destruct Hp as [->|Hp], Hp' as [->|Hp'].
      - reflexivity.
      - exfalso. apply N1. rewrite Q. apply in_map. exact Hp'.
      - exfalso. apply N1. rewrite <- Q. apply in_map. exact Hp.
      - apply IH; assumption.
    Qed.
    Lemma good_items : forall l, KL items l -> forall p, In p (sm_values (ly_items l)) -> good_shape (item_shape items (pi_item p)).
    Proof.
      intros l (_ & K) p Hp. unfold FQ in K. rewrite Forall_forall in K. destruct (K p Hp) as (it & q & E & _). unfold item_shape. rewrite E. rewrite Forall_forall in Snd.
      exact (so_shape _ _ (Snd _ (nth_error_In _ _ E))).
    Qed.
    Lemma free_apart : forall l, KL items l -> (no_collisions l <-> apart items (ly_bin l) (placed l)).
    Proof.
      intros l K. pose proof K as ((L & _) & _). unfold no_collisions, apart, free_of_bin. split.
      - intros (A & B). split.
        + intros x y p Hx Hy Cx Cy. apply in_placed in Hx as (a & Ha & ->). apply in_placed in Hy as (b & Hb & ->).
          destruct (on_covers l a K Ha) as (_ & _ & _ & _ & Oa). destruct (on_covers l b K Hb) as (_ & _ & _ & _ & Ob).
          apply Oa in Cx. apply Ob in Cy. rewrite (A a b p Ha Hb Cx Cy). reflexivity.
        + intros x it q h p Hx E Hh Nt Cx. apply in_placed in Hx as (a & Ha & ->). cbn [fst] in E.
          destruct (on_covers l a K Ha) as (it' & q' & E' & F & Oa). rewrite E in E'. injection E' as <- <-. apply Oa in Cx.
          apply (B a Ha h p Hh); [rewrite F; exact Nt|exact Cx].
      - intros (A & B). split.
        + intros a b x Ha Hb Oa Ob. destruct (on_covers l a K Ha) as (_ & _ & _ & _ & Ca). destruct (on_covers l b K Hb) as (_ & _ & _ & _ & Cb).
          apply Ca in Oa. apply Cb in Ob. apply (same_item l a b L Ha Hb). apply (A _ _ x); [apply in_placed; eauto|apply in_placed; eauto|exact Oa|exact Ob].
        + intros a Ha h x Hh Nt Oa. destruct (on_covers l a K Ha) as (it & q & E & F & Ca). apply Ca in Oa. rewrite F in Nt.
          apply (B (pi_item a, pi_dt a) it q h x); [apply in_placed; eauto|exact E|exact Hh|exact Nt|exact Oa].
    Qed.
    Lemma certify : forall l, KL items l -> exists r, collision_free l = Ok r /\ (r = true <-> apart items (ly_bin l) (placed l)).
    Proof.
      intros l K. pose proof K as ((L & Bf & _) & _). destruct (collision_free_ok M _ l L Bf (good_items l K)) as (r & E & H). exists r. split; [exact E|].
      rewrite H. exact (free_apart l K).
    Qed.
    Lemma certify_fit : forall l i it q d u, KL items l -> nth_error items i = Some (it, q) -> p_surr (it_shape it) = Some u -> surrogate_inside (it_shape it) u -> ~ In (i, d) (placed l) ->
      exists r, item_fits it (compose d) l = Ok r /\ (r = true /\ apart items (ly_bin l) (placed l) <-> apart items (ly_bin l) ((i, d) :: placed l)).
    Proof.
      intros l i it q d u K E Eu Su Nd. pose proof K as ((L & Bf & _) & _). pose proof (so_shape _ _ (proj1 (Forall_forall _ _) Snd _ (nth_error_In _ _ E))) as Gs. cbn [fst] in Gs.
      destruct (item_fits_ok M _ l L Bf (good_items l K) it u (compose d) Gs (rigid_compose d) Eu Su) as (r & Er & H). exists r. split; [exact Er|]. rewrite H. clear r Er H.
      assert (Cd : forall x, covers items (i, d) x <-> region (moved (compose d) (it_shape it)) x).
      { intros x. unfold covers. cbn [fst snd]. split; [|eauto]. intros (it' & q' & E' & Rx). rewrite E in E'. injection E' as <- <-. exact Rx. }
      unfold fits, free_of_bin. split.
      - intros ((F1 & F2) & A & B). split.
        + intros x y p [<-|Hx] [<-|Hy] Cx Cy.
          * reflexivity.
          * exfalso. apply in_placed in Hy as (b & Hb & ->). destruct (on_covers l b K Hb) as (_ & _ & _ & _ & Ob). apply (F1 b p Hb); [apply Cd; exact Cx|apply Ob; exact Cy].
          * exfalso. apply in_placed in Hx as (b & Hb & ->). destruct (on_covers l b K Hb) as (_ & _ & _ & _ & Ob). apply (F1 b p Hb); [apply Cd; exact Cy|apply Ob; exact Cx].
          * exact (A x y p Hx Hy Cx Cy).
        + intros x it' q' h p [<-|Hx] E' Hh Nt Cx; [|exact (B x it' q' h p Hx E' Hh Nt Cx)]. cbn [fst] in E'. rewrite E in E'. injection E' as <- <-. apply (F2 h p Hh Nt). apply Cd. exact Cx.
      - intros (A & B). split; [split|split].
        + intros b x Hb Rx Ox. destruct (on_covers l b K Hb) as (_ & _ & _ & _ & Ob). apply Nd. rewrite (A (i, d) (pi_item b, pi_dt b) x); [apply in_placed; eauto|left; reflexivity|right; apply in_placed; eauto|apply Cd; exact Rx|apply Ob; exact Ox].
        + intros h x Hh Nt Rx. apply (B (i, d) it q h x); [left; reflexivity|exact E|exact Hh|exact Nt|apply Cd; exact Rx].
        + intros x y p Hx Hy. apply A; right; assumption.
        + intros x it' q' h p Hx. apply B. right. exact Hx.
    Qed.
  End K.

  (** *** histories *)
  Lemma bins_known : forall items bins (inst : bpinst R dtransf) ovf ops p h, bpinst_new items bins = Ok inst ->
    Forall (fun x => sound_item M (fst x)) items -> Forall (fun b => good_bin (fst b)) bins -> fine_bins bins ->
    bp_run ovf inst ops = Ok (p, h) -> all_spread ovf (bp_new inst, []) ops ->
    Forall (KL items) (bp_layouts p) /\ Forall (KL items) (bp_templates p).
  Proof.
    intros items bins inst ovf ops p h Hi Snd Gb Fb Hr Sp. pose proof (inst_ids _ _ _ Hi) as Ids.
    assert (Ei : bi_items inst = items /\ bi_bins inst = bins).
    { unfold bpinst_new in Hi. apply rbind_ok in Hi as (? & _ & Hi). injection Hi as <-. auto. }
    destruct Ei as (E1 & E2). rewrite <- E1 in Snd. rewrite <- E2 in Gb, Fb. set (its := bi_items inst) in *. set (n := length (bi_bins inst)).
    assert (I0 : BInv inst (bp_new inst) []) by apply new_inv.
    rewrite <- E1. fold its. cut (GI inst (fun l => KL its l /\ (bn_id (ly_bin l) < n)%nat) (fun s => KS its s /\ (bn_id (ls_bin s) < n)%nat) p h /\
      forall o, bop_ok p o -> ((exists s', bstep ovf (p, h) o = Ok s') <-> possible ovf (latest ops) p h o)).
    { intros (Gi0 & _). split; [eapply Forall_impl; [|exact (gi_l _ _ _ _ _ Gi0)]; cbn; tauto|eapply Forall_impl; [|exact (gi_t _ _ _ _ _ Gi0)]; cbn; tauto]. }
    refine (run_both inst Ids (fun l => KL its l /\ (bn_id (ly_bin l) < n)%nat) (fun s => KS its s /\ (bn_id (ls_bin s) < n)%nat) _ _ _ _ _ _ _ _ _ ovf ops p h Hr
      (all_spread_ok M inst Ids Snd ovf ops _ _ I0 Sp)).
    - intros l (_ & H). exact H.
    - intros l id (H & K). split; [apply KL_clone; exact H|exact K].
    - intros l it q d ptr (H & K) E _ Nd. destruct (KL_place its Snd l it q d ptr H E Nd) as (k & l' & El & H' & Eb). exists k, l'. split; [exact El|]. split; [exact H'|]. rewrite Eb. exact K.
    - intros l k b q m (H & K) Er. destruct (KL_remove its l k b q m H Er) as (l' & El & H' & Eb). exists l'. split; [exact El|]. split; [exact H'|]. rewrite Eb. exact K.
    - intros l (H & K). destruct (KL_flush its l H) as (l' & El & H' & Eb). exists l'. split; [exact El|]. split; [exact H'|]. rewrite Eb. exact K.
    - intros l (H & K). destruct (KL_snapshot its l H) as (s & l' & El & H' & Hs & Eb & Es). exists s, l'. split; [exact El|]. split; (split; [assumption|]); [rewrite Eb|rewrite Es]; exact K.
    - intros l s (H & K) (Hs & _) X Y. destruct (KL_restore its l s H Hs X Y) as (l' & El & H' & Eb). exists l'. split; [exact El|]. split; [exact H'|]. rewrite Eb. exact K.
    - intros s (Hs & K). destruct (KL_from_snapshot its s Hs) as (l' & El & H' & Eb). exists l'. split; [exact El|]. split; [exact H'|]. rewrite Eb. exact K.
    - intros t b m Eb. rewrite Forall_forall in Gb. unfold fine_bins in Fb. rewrite Forall_forall in Fb. pose proof (nth_error_In _ _ Eb) as Hin. split; [apply KL_new; [exact (Gb _ Hin)|exact (Fb _ Hin)]|].
      cbn [layout_new ly_bin]. rewrite (proj2 Ids _ _ _ Eb). apply nth_error_Some. congruence.
  Qed.
  Lemma strip_known : forall items hgt (inst : spinst R) ovf tol w c ptr ops (p0 p : sp R dtransf) h, spinst_new items hgt = Ok inst ->
    Forall (fun x => sound_item M (fst x)) items -> sp_new inst w c ptr = Ok p0 -> rfold (sstep ovf tol) ops (p0, []) = Ok (p, h) ->
    all_sspread ovf tol (p0, []) ops -> KL items (sp_layout p).
  Proof.
    intros items hgt inst ovf tol w c ptr ops p0 p h Hi Snd H0 Hr Sp. pose proof (sinst_ids _ _ _ Hi) as Ids.
    assert (E1 : si_items inst = items).
    { unfold spinst_new in Hi. apply rbind_ok in Hi as (? & _ & Hi). injection Hi as <-. auto. }
    rewrite <- E1 in Snd. set (its := si_items inst) in *. pose proof (sp_new_inv _ _ _ _ _ H0) as I0.
    pose proof (all_sspread_ok M inst Ids Snd ovf tol ops _ _ I0 Sp) as Ho.
    rewrite <- E1. fold its. cut (GSI inst (KL its) (KS its) p h /\ forall o P, sop_ok p o -> spossible ovf p h o = Some P -> ((exists s', sstep ovf tol (p, h) o = Ok s') <-> P)).
    { intros (Gi0 & _). exact (gs_l _ _ _ _ _ Gi0). }
    refine (srun_both inst Ids (KL its) (KS its) (fun _ => True) _ _ _ _ _ _ _ _ _ _ ovf tol w c ptr ops p0 p h Logic.I H0 Ho Hr).
    - auto.
    - intros l (((_ & Fi & _) & _) & _). exact Fi.
    - intros l s irr (((_ & _ & Rel) & _) & _) Gs. pose proof (rl_inv _ _ _ _ _ _ _ Rel) as Iv. pose proof (ask_answer _ _ _ (AskPoly s irr) Iv Gs) as Et. cbn [ask] in Et.
      destruct (poly_collides (ly_cde l) s irr) as [b|] eqn:Eb; [exists b; reflexivity|discriminate].
    - intros r c' ptr' b id _ E. apply KL_new; [eapply (strip_good (sym_R M)); exact E|exact (strip_fine M _ _ _ _ E)].
    - intros l it q d ptr' H E _ Nd. destruct (KL_place its Snd l it q d ptr' H E Nd) as (k & l' & El & H' & _). eauto.
    - intros l k b q m H Er. destruct (KL_remove its l k b q m H Er) as (l' & El & H' & _). eauto.
    - intros l H. destruct (KL_flush its l H) as (l' & El & H' & _). eauto.
    - intros l H. destruct (KL_snapshot its l H) as (s & l' & El & H' & Hs & _). eauto.
    - intros l s H Hs X Y. destruct (KL_restore its l s H Hs X Y) as (l' & El & H' & _). eauto.
    - intros s Hs. destruct (KL_from_snapshot its s Hs) as (l' & El & H' & _). eauto.
  Qed.

  Lemma packed_apart : forall items (b : bin R dtransf) pl, packed items b pl -> apart items b pl.
  Proof. intros items b pl (_ & A & B & _). split; assumption. Qed.

  Theorem certify_bp : forall items bins (inst : bpinst R dtransf) ovf ops p h l, bpinst_new items bins = Ok inst ->
    Forall (fun x => sound_item M (fst x)) items -> Forall (fun b => good_bin (fst b)) bins -> fine_bins bins ->
    bp_run ovf inst ops = Ok (p, h) -> all_spread ovf (bp_new inst, []) ops -> In l (bp_layouts p) ->
    exists r, collision_free l = Ok r /\ (r = true <-> apart items (ly_bin l) (placed l)).
  Proof.
    intros items bins inst ovf ops p h l Hi Snd Gb Fb Hr Sp Hl. apply certify; [exact Snd|]. pose proof (proj1 (bins_known items bins inst ovf ops p h Hi Snd Gb Fb Hr Sp)) as K.
    rewrite Forall_forall in K. exact (K l Hl).
  Qed.
  Theorem certify_sp : forall items hgt (inst : spinst R) ovf tol w c ptr ops (p0 p : sp R dtransf) h, spinst_new items hgt = Ok inst ->
    Forall (fun x => sound_item M (fst x)) items -> sp_new inst w c ptr = Ok p0 -> rfold (sstep ovf tol) ops (p0, []) = Ok (p, h) -> all_sspread ovf tol (p0, []) ops ->
    exists r, collision_free (sp_layout p) = Ok r /\ (r = true <-> apart items (ly_bin (sp_layout p)) (placed (sp_layout p))).
  Proof. intros items hgt inst ovf tol w c ptr ops p0 p h Hi Snd H0 Hr Sp. apply certify; [exact Snd|]. exact (strip_known items hgt inst ovf tol w c ptr ops p0 p h Hi Snd H0 Hr Sp). Qed.
  Theorem certify_fit_bp : forall items bins (inst : bpinst R dtransf) ovf ops p h li l i it q d u, bpinst_new items bins = Ok inst ->
    Forall (fun x => sound_item M (fst x)) items -> Forall (fun b => good_bin (fst b)) bins -> fine_bins bins ->
    bp_run ovf inst ops = Ok (p, h) -> all_spread ovf (bp_new inst, []) ops -> target p li = Some l ->
    nth_error items i = Some (it, q) -> p_surr (it_shape it) = Some u -> surrogate_inside (it_shape it) u -> ~ In (i, d) (placed l) ->
    exists r, item_fits it (compose d) l = Ok r /\ (r = true /\ apart items (ly_bin l) (placed l) <-> apart items (ly_bin l) ((i, d) :: placed l)).
  Proof.
    intros items bins inst ovf ops p h li l i it q d u Hi Snd Gb Fb Hr Sp Hl Ei Eu Su Nd. apply (certify_fit items Snd l i it q d u); try assumption.
    destruct (bins_known items bins inst ovf ops p h Hi Snd Gb Fb Hr Sp) as (K1 & K2). rewrite Forall_forall in K1, K2.
    destruct li as [j|j]; cbn [target] in Hl; apply nth_error_In in Hl; [exact (K1 l Hl)|exact (K2 l Hl)].
  Qed.
  Theorem certify_fit_sp : forall items hgt (inst : spinst R) ovf tol w c ptr ops (p0 p : sp R dtransf) h i it q d u, spinst_new items hgt = Ok inst ->
    Forall (fun x => sound_item M (fst x)) items -> sp_new inst w c ptr = Ok p0 -> rfold (sstep ovf tol) ops (p0, []) = Ok (p, h) -> all_sspread ovf tol (p0, []) ops ->
    nth_error items i = Some (it, q) -> p_surr (it_shape it) = Some u -> surrogate_inside (it_shape it) u -> ~ In (i, d) (placed (sp_layout p)) ->
    exists r, item_fits it (compose d) (sp_layout p) = Ok r /\
      (r = true /\ apart items (ly_bin (sp_layout p)) (placed (sp_layout p)) <-> apart items (ly_bin (sp_layout p)) ((i, d) :: placed (sp_layout p))).
  Proof.
    intros items hgt inst ovf tol w c ptr ops p0 p h i it q d u Hi Snd H0 Hr Sp Ei Eu Su Nd. apply (certify_fit items Snd _ i it q d u); try assumption.
    exact (strip_known items hgt inst ovf tol w c ptr ops p0 p h Hi Snd H0 Hr Sp).
  Qed.
  (** checked histories pass *)
  Theorem checked_pass_bp : forall items bins (inst : bpinst R dtransf) ovf ops p h, bpinst_new items bins = Ok inst ->
    Forall (fun x => sound_item M (fst x)) items -> Forall (fun b => good_bin (fst b)) bins -> fine_bins bins ->
    bchecked ovf (bp_new inst, []) ops -> bp_run ovf inst ops = Ok (p, h) -> Forall (fun l => collision_free l = Ok true) (bp_layouts p).
  Proof.
    intros items bins inst ovf ops p h Hi Snd Gb Fb C Hr. pose proof (Gi M items Snd) as Fi. pose proof (bp_history_packs M BSok items bins inst ovf ops p h Hi Gb Fi Fb C Hr) as (Pk & _).
    destruct (bin_history M BSok items bins inst ovf ops p h Hi Gb Fi Fb C Hr) as (_ & _ & _ & _ & Bo). rewrite Forall_forall in Pk |- *. intros l Hl.
    destruct (certify_bp items bins inst ovf ops p h l Hi Snd Gb Fb Hr (valid_spread M ovf ops _ Bo) Hl) as (r & E & H). rewrite E. f_equal. apply H. apply packed_apart. exact (proj2 (Pk l Hl)).
  Qed.
  Theorem checked_pass_sp : forall items hgt (inst : spinst R) ovf tol w c ptr ops (p0 p : sp R dtransf) h, spinst_new items hgt = Ok inst ->
    Forall (fun x => sound_item M (fst x)) items -> sp_new inst w c ptr = Ok p0 -> schecked_run ovf tol (p0, []) ops -> rfold (sstep ovf tol) ops (p0, []) = Ok (p, h) ->
    collision_free (sp_layout p) = Ok true.
  Proof.
    intros items hgt inst ovf tol w c ptr ops p0 p h Hi Snd H0 C Hr. pose proof (Gi M items Snd) as Fi. pose proof (sp_history_packs M BSok items hgt inst ovf tol w c ptr ops p0 p h Hi Fi H0 C Hr) as (_ & Pk & _).
    destruct (strip_history M BSok items hgt inst ovf tol w c ptr ops p0 p h Hi Fi H0 C Hr) as (_ & _ & Bo).
    destruct (certify_sp items hgt inst ovf tol w c ptr ops p0 p h Hi Snd H0 Hr (valid_sspread M ovf tol ops _ Bo)) as (r & E & H). rewrite E. f_equal. apply H. apply packed_apart. exact Pk.
  Qed.
End C.
