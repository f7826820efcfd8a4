(** The search of one layout always comes to an end with an answer. *)
From Coq Require Import List Bool Arith ZArith Lia Permutation.
From Verif Require Import Base Num GeoModel HazardModel QTModel TransfModel HpgModel CdeModel CdeSpec
  PolyModel SlotMapModel LayoutModel ProblemModel ProblemSpec LbfModel BaseProofs HazVecProofs QTProofs CdeProofs CdeOpsProofs CdeHistProofs CdeThmProofs SlotMapProofs ProblemProofs
  ProblemOpsProofs ProblemThmProofs LayoutProofs MirrorProofs Instances RigidProofs XformProofs RegionProofs GeoPrimProofs GeoRectProofs CdeGeoProofs CdeGeoThmProofs
  ParityProofs NormProofs HpgSpec HpgRegProofs HpgGenProofs HpgHistProofs HpgCellProofs HpgThmProofs LbfSpec LbfProofs LbfRunProofs LbfSamplerProofs LbfHistProofs.
From Coq Require Import Reals Lra.
From Verif Require Import GeoModel HazardModel QTModel TransfModel HpgModel CdeModel CdeSpec GeoSpec PlaceSpec HpgSpec ShapeSpec LbfModel LbfSpec.
Import ListNotations.
Local Open Scope R_scope.

Section L.
  Variable M : R.
  #[local] Instance NLZ : Num R := RNumT Reqb M.
  #[local] Existing Instance RTrig.
  Context {ED : EqD (dtransf R)} {BS : BSearch}.
  Hypothesis BSok : bsearch_ok BS.
  Context {G : Type} {RG : Rng R G} {X : Extra R}.
  Hypothesis Pow : sane_extra X.
  Local Notation dtransf := (dtransf R).
  Local Notation layout := (layout R dtransf).

  (** *** the sampler *)
  Lemma prox_total : forall (ce : cell R dtransf) q, length (c_qz ce) = N_QUALITIES -> (forall k, q = Some k -> (k <= N_QUALITIES)%nat) ->
    exists p, hazard_proximity ce q = Ok p.
  Proof.
    intros ce q Len Hq. unfold hazard_proximity. set (n := match q with Some k => k | None => N_QUALITIES end).
    assert (Hn : (n <= length (c_qz ce))%nat) by (subst n; rewrite Len; destruct q as [k|]; [apply Hq; reflexivity|lia]). clearbody n.
    assert (K : forall l p, (forall k, In k l -> (k < length (c_qz ce))%nat) -> exists p', rfold (fun p k => z <- expect (nth_error (c_qz ce) k) ;; Ok (fmin p z)) l p = Ok p').
    { induction l as [|k l IH]; intros p H; cbn [rfold]; [eauto|]. destruct (nth_error (c_qz ce) k) as [z|] eqn:E.
      - cbn [expect rbind]. apply IH. intros k' Hk. apply H. right. exact Hk.
      - exfalso. apply nth_error_None in E. pose proof (H k (or_introl eq_refl)). lia. }
    apply K. intros k Hk. apply in_seq in Hk. lia.
  Qed.
  Lemma sampler_total : forall (it : item R) (cells : list (cell R dtransf)) bb, (forall ce, In ce cells -> length (c_qz ce) = N_QUALITIES) ->
    (forall q, it_quality it = Some q -> (q <= N_QUALITIES)%nat) -> exists o, hsampler_new it cells bb = Ok o.
  Proof.
    intros it cells bb Len Q. unfold hsampler_new.
    assert (K1 : forall l, (forall ce, In ce l -> length (c_qz ce) = N_QUALITIES) ->
      exists el, rfilter (fun c : cell R dtransf => could_accommodate c (crad (p_poi (it_shape it))) (it_quality it)) l = Ok el).
    { induction l as [|ce l IH]; intros Hl; cbn [rfilter]; [eauto|].
      assert (C : exists b, could_accommodate ce (crad (p_poi (it_shape it))) (it_quality it) = Ok b).
      { unfold could_accommodate. destruct (flt _ _); [eauto|]. destruct (prox_total ce (it_quality it) (Hl ce (or_introl eq_refl)) Q) as (p & Ep). rewrite Ep. cbn [rbind]. eauto. }
      destruct C as (b & Eb). rewrite Eb. cbn [rbind]. destruct IH as (el & Ee); [intros ce' Hc; apply Hl; right; exact Hc|]. rewrite Ee. cbn [rbind]. eauto. }
    destruct (K1 cells Len) as (el & Eel). rewrite Eel. cbn [rbind].
    assert (K2 : forall l, (forall b, In b l -> proper b) -> exists rs, rmapM rect_sampler l = Ok rs).
    { induction l as [|b l IH]; intros Hl; cbn [rmapM]; [eauto|]. destruct (Hl b (or_introl eq_refl)) as (A & B).
      unfold rect_sampler at 1. assert (C : flt (x_min b) (x_max b) = true) by (apply Rltb_spec; exact A). assert (D : flt (y_min b) (y_max b) = true) by (apply Rltb_spec; exact B).
      rewrite C, D. cbn [andb rbind]. destruct IH as (rs & Er); [intros b' Hb; apply Hl; right; exact Hb|]. rewrite Er. cbn [rbind]. eauto. }
    destruct (K2 (omap (fun c : cell R dtransf => from_intersection (c_bbox' c) bb) el)) as (rs & Er).
    { intros b Hb. apply omap_in in Hb as (ce & _ & P). eapply (part_proper M). exact P. }
    rewrite Er. cbn [rbind]. eauto.
  Qed.
  Lemma rot_total : forall (r : rotation R) (g : G), r <> RotDiscrete [] -> exists a g', sample_rot r g = Ok (a, g').
  Proof.
    intros [| |[|a l]] g H; cbn [sample_rot]; [eauto| |contradiction|].
    - destruct (g_uniform g _ _) as [a g']. eauto.
    - unfold choose. destruct (g_index g _) as [i g']. cbn [expect]. eauto.
  Qed.
  Lemma draw_total : forall (h : hsampler R) (g : G), hs_cells h <> [] -> it_rot (hs_item h) <> RotDiscrete [] ->
    exists t g', hsampler_sample h g = Ok (t, g').
  Proof.
    intros h g Ne Rt. assert (C : exists b g1, choose g (hs_cells h) = Some (b, g1)).
    { destruct (hs_cells h) as [|b0 l]; [contradiction|]. unfold choose; destruct (g_index g _) as [i g']; eauto. }
    destruct C as (b & g1 & C). destruct (rot_total (it_rot (hs_item h)) g1 Rt) as (a & g2 & Ea).
    unfold hsampler_sample. rewrite C. cbn [expect rbind]. unfold sample_rect. rewrite Ea. cbn [rbind].
    destruct (g_uniform g2 _ _) as [x g3]. destruct (g_uniform g3 _ _) as [y g4]. cbn [rbind]. eauto.
  Qed.

  (** *** the loops *)
  Section Loops.
  Variables (c : cde R dtransf) (u : surrogate R) (irr : list (entity dtransf)) (li : lidx) (it : item R).
  Hypothesis Pd : pole_disk (it_shape it).
  Hypothesis Rt : it_rot it <> RotDiscrete [].
  Hypothesis Sur : forall t, exists b, surrogate_collides c u t irr = Ok b.
  Hypothesis Pol : forall t, rigid t -> exists b, poly_collides c (tr_poly t (it_shape it)) irr = Ok b.
  Lemma examine_total : forall best buf t, rigid t -> buf_ok it buf -> exists buf' r, examine c u irr it best buf t = Ok (buf', r).
  Proof.
    intros best buf t R B. unfold examine. destruct (Sur t) as ([|] & E); rewrite E; cbn [rbind]; [eauto|].
    assert (Ebuf : tr_poly_from t buf (it_shape it) = Ok (strip_surrogate (tr_poly t (it_shape it)))) by exact (buf_tr M it t buf B). rewrite Ebuf. cbn [rbind]. destruct (worth_testing _ _); [|eauto].
    assert (P : exists b, poly_collides c (strip_surrogate (tr_poly t (it_shape it))) irr = Ok b) by exact (Pol t R). destruct P as (b & P). rewrite P. cbn [rbind]. eauto.
  Qed.
  Lemma fine_rigid : forall t, rot_fine it t -> rigid t.
  Proof. intros t (A & _). exact (affine_rigid t A). Qed.
  (** the sampler is never emptied: the cheapest placement found has its pole in a cell
      that reaches further left, which could still yield something cheaper *)
  Variable h : hsampler R.
  Hypothesis Room : forall t, rigid t -> acc M c u irr it t -> exists b, In b (hs_cells h) /\ in_rect b (pole_at t (it_shape it)) /\ x_min b < px (pole_at t (it_shape it)).
  Hypothesis Ne : hs_cells h <> [].
  Lemma cells_left : forall s, sampled M c u irr li it h s -> hs_cells (se_sampler s) <> [].
  Proof.
    intros s [S1 S2 S3 S4 S5 S6] Em. destruct S3 as (_ & Fo). destruct (se_best s) as [[o k]|] eqn:Eb.
    - destruct Fo as (_ & _ & _ & _ & Ac & Ek & _). assert (Rc' : rigid (compose (po_dt o))) by exact (rigid_compose (po_dt o)).
      destruct (Room _ Rc' Ac) as (b & Hb & ((_ & _) & (Y1 & _)) & Lt). destruct (S5 b Hb) as [K|(o' & k' & Eo & L)]; [rewrite Em in K; destruct K|].
      rewrite Eb in Eo. injection Eo as <- <-. destruct (cost_exists _ (pole_moved_ne (compose (po_dt o)) _ Pd)) as (k' & C).
      pose proof (cost_floor _ _ _ Rc' Pd C) as Fl. pose proof (cost_at_spec M it _ _ C) as Ec. assert (Kk : k = k') by exact (eq_trans Ek Ec).
      unfold lost in L. rewrite Kk in L. lra.
    - destruct (hs_cells h) as [|b l]; [contradiction|]. destruct (S5 b (or_introl eq_refl)) as [K|(o' & k' & Eo & _)]; [rewrite Em in K; destruct K|]. rewrite Eb in Eo. discriminate.
  Qed.
  Lemma uniform_total : forall n s, sampled M c u irr li it h s -> exists s', uniform_loop n c u irr li it s = Ok s'.
  Proof.
    induction n as [|n IH]; intros s Sa; cbn [uniform_loop]; [eauto|].
    pose proof Sa as [S1 S2 S3 S4 S5 S6].
    assert (Rt' : it_rot (hs_item (se_sampler s)) <> RotDiscrete []) by (rewrite S1; exact Rt).
    destruct (draw_total (se_sampler s) (se_rng s) (cells_left s Sa) Rt') as (t & g' & Et).
    assert (P0 : pre_ok M (se_sampler s)) by (unfold pre_ok; rewrite S2; eauto).
    pose proof (hsample_ok M _ _ _ _ P0 Et) as Rf. rewrite S1 in Rf.
    destruct (examine_total (se_best s) (se_buf s) t (fine_rigid t Rf) (proj1 S3)) as (buf' & r & Ex).
    assert (E1 : exists s1, uniform_step c u irr li it s = Ok s1) by (unfold uniform_step; rewrite Et; cbn [rbind]; rewrite Ex; cbn [rbind]; eauto).
    destruct E1 as (s1 & E1). rewrite E1. cbn [rbind]. apply IH.
    assert (E2 : uniform_loop 1 c u irr li it s = Ok s1) by (cbn [uniform_loop]; rewrite E1; reflexivity). exact (loop_sampled M c u irr li it h 1 s s1 Sa E2).
  Qed.
  Lemma decay_total : forall l pct, 0 <= fst (ls_transl l) -> 0 <= snd (ls_transl l) -> 0 <= fst (ls_rotr l) -> 0 <= snd (ls_rotr l) ->
    exists l', decay_stddev l pct = Ok l' /\ ls_transl l' = ls_transl l /\ ls_rotr l' = ls_rotr l.
  Proof.
    intros l pct A B C D. unfold decay_stddev, set_stddev. destruct Pow as (_ & Pw).
    assert (Q : forall a b, 0 <= a -> 0 <= b -> fle f0 (a * fpowf (b / a) pct)%num = true).
    { intros a b Ha Hb. cbn [fle NLZ RNumT f0 fmul fdiv]. apply Rleb_spec. apply Rmult_le_pos; [exact Ha|]. apply Pw.
      destruct (Req_dec a 0) as [->|Na]; [unfold Rdiv; rewrite Rinv_0; lra|]. apply Rmult_le_pos; [exact Hb|]. apply Rlt_le, Rinv_0_lt_compat. lra. }
    rewrite (Q _ _ A B), (Q _ _ C D). cbn [andb rassert rbind]. eauto.
  Qed.
  Lemma local_total : forall n is s, buf_ok it (se_buf s) ->
    0 <= fst (ls_transl (se_sampler s)) -> 0 <= snd (ls_transl (se_sampler s)) -> 0 <= fst (ls_rotr (se_sampler s)) -> 0 <= snd (ls_rotr (se_sampler s)) ->
    exists s', rfold (local_step c u irr li it n) is s = Ok s'.
  Proof.
    intros n. induction is as [|i is IH]; intros s B A1 A2 A3 A4; cbn [rfold]; [eauto|].
    unfold local_step at 1. destruct (lsampler_sample (se_sampler s) (se_rng s)) as [d g].
    assert (Rc' : rigid (compose d)) by exact (rigid_compose d).
    destruct (examine_total (se_best s) (se_buf s) (compose d) Rc' B) as (buf' & r & Ex). rewrite Ex. cbn [rbind].
    destruct (examine_spec M c u irr it _ _ _ _ _ B Ex) as (B' & _).
    destruct r as [cost|].
    - destruct (decay_total (shift_mean (se_sampler s) d) (fofN i / fofN n)%num A1 A2 A3 A4) as (l' & El & T1 & T2). rewrite El. cbn [rbind].
      apply IH; cbn [se_buf se_sampler]; rewrite ?T1, ?T2; assumption.
    - destruct (decay_total (se_sampler s) (fofN i / fofN n)%num A1 A2 A3 A4) as (l' & El & T1 & T2). rewrite El. cbn [rbind].
      apply IH; cbn [se_buf se_sampler]; rewrite ?T1, ?T2; assumption.
  Qed.
  End Loops.

  (** *** one layout *)
  Variable items : list (item R * nat).
  Hypothesis Snd : Forall (fun x => sound_item M (fst x)) items.
  Lemma l_ask_any : forall l q, LI (item_shape items) l -> good_question q -> exists a, ask (ly_cde l) q = Ok a.
  Proof. intros l q (_ & _ & Rl) W. rewrite (ask_answer _ _ _ q (rl_inv _ _ _ _ _ _ _ Rl) W). eauto. Qed.
  Lemma sample_total : forall li l it q cfg g, HL M items l -> nth_error items (it_id it) = Some (it, q) -> (lc_local cfg <= lc_samples cfg)%nat ->
    exists o g' drawn, sample_layout li l it cfg g = Ok (o, g', drawn).
  Proof.
    intros li l it q cfg g H Ni Lc. pose proof (item_sound M items Snd _ _ _ Ni) as Si. pose proof H as (L & Bf & _).
    destruct (so_probed _ _ Si) as (u & Eu & _). unfold sample_layout. rewrite Eu. cbn [expect rbind].
    assert (Lb : Nat.leb (lc_local cfg) (lc_samples cfg) = true) by (apply Nat.leb_le; exact Lc). rewrite Lb. cbn [rassert rbind].
    destruct (HL_hpg M BSok items l H) as (gr & Eg & Sc).
    assert (Eg' : cde_hpg (ly_cde l) = Ok (Some gr)) by exact Eg. rewrite Eg'. cbn [rbind expect].
    destruct (sampler_total it (omap (fun x => x) (g_cells (hg_grid gr))) (p_bbox (a_obj (bn_outer (ly_bin l))))) as (o & Eo).
    { intros ce Hce. apply omap_in in Hce as (x & Hx & ->). exact (sc_len _ _ _ (Sc ce Hx)). }
    { exact (so_quality _ _ Si). }
    rewrite Eo. cbn [rbind]. destruct o as [h|]; [|eauto].
    set (irr := item_irrelevant (it_quality it) (all_hazards (ly_cde l))).
    assert (Sur : forall t, exists b, surrogate_collides (ly_cde l) u t irr = Ok b).
    { intros t. destruct (l_ask_any l (AskSurrogate u t irr) L (so_surr _ _ Si u Eu)) as (a & Ea). cbn [ask] in Ea. apply rbind_ok in Ea as (b & Eb & _). eauto. }
    assert (Pol : forall t, rigid t -> exists b, poly_collides (ly_cde l) (tr_poly t (it_shape it)) irr = Ok b).
    { intros t Rt. destruct (l_ask_any l (AskPoly (tr_poly t (it_shape it)) irr) L) as (a & Ea).
      - exact (good_wf _ (good_tr_poly t _ Rt (so_shape _ _ Si))).
      - cbn [ask] in Ea. apply rbind_ok in Ea as (b & Eb & _). eauto. }
    assert (Ne : hs_cells h <> []).
    { unfold hsampler_new in Eo. apply rbind_ok in Eo as (el & _ & Eo). apply rbind_ok in Eo as ([|r0 rs] & _ & Eo); [discriminate|]. injection Eo as <-. discriminate. }
    assert (Tl : tolerated l it irr) by (intros e; exact (item_irrelevant_spec (it_quality it) (all_hazards (ly_cde l)) e)).
    assert (Room : forall t, rigid t -> acc M (ly_cde l) u irr it t -> exists b, In b (hs_cells h) /\ in_rect b (pole_at t (it_shape it)) /\ x_min b < px (pole_at t (it_shape it))).
    { intros t Rt Ac. apply (acc_passes M l it irr u t) in Ac as (_ & Ps).
      destruct (HL_left M BSok items Snd l it q gr (Some h) irr t H Ni Eg Eo Tl Rt Ps) as (h' & b & Eh & B). injection Eh as <-. eauto. }
    destruct (uniform_total (ly_cde l) u irr li it (so_pole _ _ Si) (so_turns _ _ Si) Sur Pol h Room Ne (lc_samples cfg - lc_local cfg) _
      (start_sampled M (ly_cde l) u irr li it _ _ h g Eo)) as (s & Es).
    rewrite Es. cbn [rbind]. destruct (se_best s) as [[po cost]|] eqn:Eb; [|eauto].
    pose proof (loop_sampled M (ly_cde l) u irr li it h _ _ _ (start_sampled M (ly_cde l) u irr li it _ _ h g Eo) Es) as [_ _ (Bu & _) _ _ _].
    pose proof (gs_proper _ (outer_good (ly_bin l) Bf)) as (W1 & W2). destruct Pow as (Hpi & _).
    set (bx := p_bbox (a_obj (bn_outer (ly_bin l)))) in *.
    assert (Wm : 0 <= Rmax (x_max bx - x_min bx) (y_max bx - y_min bx)) by (eapply Rle_trans; [|apply Rmax_l]; lra).
    destruct (local_total (ly_cde l) u irr li it Sur Pol (lc_local cfg) (seq 0 (lc_local cfg))
      (Se (se_rng s) (lsampler_new it (po_dt po) bx) (se_buf s) (Some (po, cost)) (se_drawn s))) as (s' & Es').
    - exact Bu.
    - cbn. unfold r_width, r_height. cbn [fsub NLZ RNumT]. apply Rmult_le_pos; [|exact Wm]. lra.
    - cbn. unfold r_width, r_height. cbn [fsub NLZ RNumT]. apply Rmult_le_pos; [|exact Wm]. lra.
    - cbn. set (w := fPI) in *. clearbody w. lra.
    - cbn. set (w := fPI) in *. clearbody w. lra.
    - rewrite Es'. cbn [rbind]. eauto.
  Qed.
End L.
Section Exact.
  Variable M : R.
  #[local] Instance NLX : Num R := RNumT Reqb M.
  #[local] Existing Instance RTrig.
  Context {ED : EqD (dtransf R)} {BS : BSearch} {G : Type} {RG : Rng R G} {X : Extra R}.
  Lemma search_exact : bsearch_ok BS -> sane_extra X -> forall items li l it q cfg (g : G), Forall (fun x => sound_item M (fst x)) items -> filled items l ->
    nth_error items (it_id it) = Some (it, q) -> (lc_local cfg <= lc_samples cfg)%nat ->
    (exists o g' drawn, sample_layout li l it cfg g = Ok (o, g', drawn)) <-> exists gr, cde_hpg (ly_cde l) = Ok (Some gr).
  Proof.
    intros BSok Hx items li l it q cfg g Snd Fl Ni Lc. split.
    - intros (o & g' & dr & E). unfold sample_layout in E. apply rbind_ok in E as (u & _ & E). apply rbind_ok in E as (u' & _ & E). apply rbind_ok in E as (og & Eg & E).
      apply rbind_ok in E as (gr & Ex & _). apply expect_ok in Ex. exists gr. rewrite Eg, Ex. reflexivity.
    - intros (gr & Eg). exact (sample_total M BSok Hx items Snd li l it q cfg g (filled_HL M BSok items Snd l gr Fl Eg) Ni Lc).
  Qed.
End Exact.
