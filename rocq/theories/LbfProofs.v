(** Sampling one layout. *)
From Coq Require Import List Bool Arith ZArith Lia.
From Verif Require Import Base Num GeoModel HazardModel QTModel TransfModel HpgModel CdeModel CdeSpec
  PolyModel SlotMapModel LayoutModel ProblemModel ProblemSpec LbfModel BaseProofs HazVecProofs Instances RigidProofs XformProofs LbfSpec.
From Coq Require Import Reals Lra.
From Verif Require Import GeoModel HazardModel QTModel TransfModel HpgModel CdeModel CdeSpec GeoSpec PlaceSpec ShapeSpec LbfModel LbfSpec.
Import ListNotations.
Local Open Scope R_scope.

Section Irr.
  Context {F : Type} {N : Num F} {T : Trig F} {ED : EqD (dtransf F)}.
  Lemma irrelevant_spec : forall {D} (f : @hfilter D) (hs : list (hazard F D)) e, In e (generate_irrelevant f hs) <-> In e (map (@h_ent F D) hs) /\ f e = true.
  Proof.
    intros D f. induction hs as [|h hs IH]; intros e; [cbn; tauto|]. unfold generate_irrelevant in *. cbn [omap map].
    destruct (f (h_ent h)) eqn:E; cbn [In]; rewrite IH; split.
    - intros [<-|(A & B)]; auto.
    - intros ([<-|A] & B); auto.
    - intros (A & B); auto.
    - intros ([<-|A] & B); [congruence|auto].
  Qed.
  Lemma item_irrelevant_spec : forall {D} q (hs : list (hazard F D)) e,
    In e (item_irrelevant q hs) <-> In e (map (@h_ent F D) hs) /\ tolerates q e.
  Proof.
    intros D q hs e. unfold item_irrelevant, tolerates. destruct q as [b|].
    - rewrite irrelevant_spec. split; intros (A & B); (split; [exact A|]).
      + destruct e as [| | |k i]; try discriminate. exists k, i. split; [reflexivity|]. apply Nat.leb_le. exact B.
      + destruct B as (k & i & -> & B). apply Nat.leb_le. exact B.
    - cbn. split; [intros []|]. intros (_ & k & i & _ & []).
  Qed.
End Irr.

Section L.
  Variable M : R.
  #[local] Instance NL : Num R := RNumT Reqb M.
  #[local] Existing Instance RTrig.
  Context {ED : EqD (dtransf R)} {BS : BSearch} {G : Type} {RG : Rng R G} {X : Extra R}.
  Local Notation dtransf := (dtransf R).
  Local Notation layout := (layout R dtransf).
  Local Notation popt := (popt dtransf).

  Lemma rltb_spec : forall a b : R, flt a b = true <-> a < b.
  Proof. intros a b. cbn. unfold Rltb. destruct (Rlt_dec a b); split; intros H; try assumption; try reflexivity; [discriminate|contradiction]. Qed.
  Lemma rltb_false : forall a b : R, flt a b = false -> b <= a.
  Proof. intros a b H. destruct (Rlt_dec a b) as [L|L]; [apply rltb_spec in L; congruence|lra]. Qed.

  (** *** buffers *)
  Definition buf_ok (it : item R) (b : poly R) : Prop :=
    length (p_pts b) = length (p_pts (it_shape it)) /\ p_area b = p_area (it_shape it) /\ p_diam b = p_diam (it_shape it) /\
    crad (p_poi b) = crad (p_poi (it_shape it)) /\ p_surr b = None.
  Lemma buf_start : forall it, buf_ok it (strip_surrogate (it_shape it)).
  Proof. intros it. unfold buf_ok, strip_surrogate; cbn. auto. Qed.
  Lemma buf_tr : forall it t buf, buf_ok it buf -> tr_poly_from t buf (it_shape it) = Ok (strip_surrogate (tr_poly t (it_shape it))).
  Proof.
    intros it t buf (A & B & C & D & E). unfold tr_poly_from. rewrite E. cbn [rbind].
    rewrite (zip_from_map (tr_point t)) by exact A. unfold strip_surrogate, tr_poly; cbn. rewrite B, C. unfold tr_circle_from, tr_circle. rewrite D. reflexivity.
  Qed.
  Lemma buf_next : forall it t, buf_ok it (strip_surrogate (tr_poly t (it_shape it))).
  Proof. intros it t. unfold buf_ok, strip_surrogate, tr_poly; cbn. rewrite map_length. auto. Qed.
  Lemma strip_collides : forall c s irr, poly_collides c (strip_surrogate s) irr = poly_collides c s irr.
  Proof. reflexivity. Qed.

  (** *** one sample *)
  Definition acc (c : cde R dtransf) (u : surrogate R) (irr : list (entity dtransf)) (it : item R) (t : transf R) : Prop :=
    surrogate_collides c u t irr = Ok false /\ poly_collides c (tr_poly t (it_shape it)) irr = Ok false.
  Definition cost_at (it : item R) (t : transf R) : R := shape_cost (tr_poly t (it_shape it)).
  Lemma examine_spec : forall c u irr it best buf t buf' r, buf_ok it buf -> examine c u irr it best buf t = Ok (buf', r) ->
    buf_ok it buf' /\
    match r with
    | Some cost => acc c u irr it t /\ cost = cost_at it t /\ match best with Some (_, b) => cost < b | None => True end
    | None => acc c u irr it t -> exists o b, best = Some (o, b) /\ b <= cost_at it t
    end.
  Proof.
    intros c u irr it best buf t buf' r B H. unfold examine in H. apply rbind_ok in H as (b & Eb & H). destruct b.
    - injection H as <- <-. split; [exact B|]. intros (A & _). congruence.
    - rewrite (buf_tr it t buf B) in H. cbn [rbind] in H. destruct (worth_testing best _) eqn:W.
      + apply rbind_ok in H as (hit & Eh & H). injection H as <- <-. split; [apply buf_next|]. rewrite strip_collides in Eh.
        destruct hit; [intros (_ & A); congruence|]. split; [split; assumption|]. split; [reflexivity|].
        unfold worth_testing in W. destruct best as [[o b]|]; [|exact Logic.I]. apply rltb_spec in W. exact W.
      + injection H as <- <-. split; [apply buf_next|]. intros _. unfold worth_testing in W. destruct best as [[o b]|]; [|discriminate].
        exists o, b. split; [reflexivity|]. apply rltb_false in W. exact W.
  Qed.

  (** what is known about the samples drawn so far *)
  Definition rot_fine (it : item R) (t : transf R) : Prop := affine t /\ exists a, allowed (it_rot it) a /\ turns a t.
  Definition found (c : cde R dtransf) u irr it (li : lidx) (best : option (popt * R)) (drawn : list (transf R)) : Prop :=
    Forall (rot_fine it) drawn /\
    match best with
    | Some (o, b) => po_layout o = li /\ po_item o = it_id it /\ In (compose (po_dt o)) drawn /\ acc c u irr it (compose (po_dt o)) /\
        b = cost_at it (compose (po_dt o)) /\ forall t, In t drawn -> acc c u irr it t -> b <= cost_at it t
    | None => forall t, In t drawn -> ~ acc c u irr it t
    end.
  Lemma found_none : forall c u irr it li best drawn t, found c u irr it li best drawn -> rot_fine it t ->
    (acc c u irr it t -> exists o b, best = Some (o, b) /\ b <= cost_at it t) -> found c u irr it li best (drawn ++ [t]).
  Proof.
    intros c u irr it li best drawn t (Fr & H) Rt A. split; [apply Forall_app; auto|]. destruct best as [[o b]|].
    - destruct H as (H1 & H2 & H3 & H4 & H5 & H6). repeat (split; [assumption|]). split; [apply in_or_app; auto|]. split; [assumption|]. split; [assumption|].
      intros t' It At. apply in_app_or in It as [It|[<-|[]]]; [auto|]. destruct (A At) as (o' & b' & E & L). injection E as -> ->. exact L.
    - intros t' It At. apply in_app_or in It as [It|[<-|[]]]; [exact (H t' It At)|]. destruct (A At) as (o' & b' & E & _). discriminate.
  Qed.
  Lemma found_some : forall c u irr it li best drawn t d cost, found c u irr it li best drawn -> rot_fine it t -> compose d = t ->
    acc c u irr it t -> cost = cost_at it t -> match best with Some (_, b) => cost < b | None => True end ->
    found c u irr it li (Some (PO li (it_id it) d, cost)) (drawn ++ [t]).
  Proof.
    intros c u irr it li best drawn t d cost (Fr & H) Rt Ed A Ec L. split; [apply Forall_app; auto|]. cbn [po_layout po_item po_dt].
    rewrite Ed. split; [reflexivity|]. split; [reflexivity|]. split; [apply in_or_app; cbn; auto|]. split; [exact A|]. split; [exact Ec|].
    intros t' It At. apply in_app_or in It as [It|[<-|[]]]; [|lra]. destruct best as [[o b]|].
    - destruct H as (_ & _ & _ & _ & _ & H6). specialize (H6 t' It At). lra.
    - exfalso. exact (H t' It At).
  Qed.

  (** *** samplers *)
  Lemma choose_in : forall {A} (g : G) (l : list A) x g', choose g l = Some (x, g') -> In x l.
  Proof.
    intros A g l x g' H. destruct l as [|y r]; [discriminate|]. unfold choose in H. destruct (g_index g (length (y :: r))) as [i g1].
    assert (E : x = nth (i mod length (y :: r)) (y :: r) y) by (injection H as <- <-; reflexivity). rewrite E.
    apply nth_In. apply Nat.mod_upper_bound. discriminate.
  Qed.
  Lemma sample_rot_ok : forall r g a g', sample_rot (F := R) r g = Ok (a, g') -> allowed r a.
  Proof.
    intros [| |l] g a g' H; cbn [sample_rot allowed] in *.
    - injection H as <- <-. reflexivity.
    - exact Logic.I.
    - apply expect_ok in H. eapply choose_in. exact H.
  Qed.
  Definition pre_ok (h : hsampler R) : Prop := exists tx ty, hs_pre h = transl_m tx ty.
  Lemma turned_pre : forall tx ty d, affine (transform_from_decomposed (transl_m tx ty) d) /\ turns (dt_rot d) (transform_from_decomposed (transl_m tx ty) d).
  Proof.
    intros tx ty d. split.
    - exact (dot_affine _ _ (rt_affine (dt_rot d) (dt_tx d) (dt_ty d)) (transl_affine tx ty)).
    - unfold turns, transform_from_decomposed, t_rotate_translate, dot_prod, rot_transl_m, transl_m; cbn [m00 m01 m02 m10 m11 m12 m20 m21 m22 fadd fmul fneg f0 f1 fsin fcos NL RNumT RTrig].
      repeat split; ring.
  Qed.
  Lemma hsample_ok : forall h g t g', pre_ok h -> hsampler_sample h g = Ok (t, g') -> rot_fine (hs_item h) t.
  Proof.
    intros h g t g' (tx & ty & Ep) H. unfold hsampler_sample in H. apply rbind_ok in H as ([b g1] & _ & H).
    apply rbind_ok in H as ([d g2] & Es & H). injection H as <- <-. unfold sample_rect in Es. apply rbind_ok in Es as ([a g3] & Ea & Es).
    destruct (g_uniform g3 _ _) as [x g4]. destruct (g_uniform g4 _ _) as [y g5]. injection Es as <- <-. rewrite Ep.
    destruct (turned_pre tx ty (DT a x y)) as (A & B). split; [exact A|]. exists a. split; [eapply sample_rot_ok; exact Ea|exact B].
  Qed.
  Lemma tighten_keeps : forall h b, hs_item (tighten h b) = hs_item h /\ hs_pre (tighten h b) = hs_pre h.
  Proof. intros h b. unfold tighten. destruct (flt b (hs_bound h)); auto. Qed.
  Lemma compose_affine : forall d : dtransf, affine (compose d).
  Proof. intros d. exact (rt_affine (dt_rot d) (dt_tx d) (dt_ty d)). Qed.
  Lemma decompose_back : forall t, affine t -> compose (decompose t) = t.
  Proof. intros t A. exact (decompose_exact t A). Qed.

  (** *** the two loops *)
  Section Loops.
  Variables (c : cde R dtransf) (u : surrogate R) (irr : list (entity dtransf)) (li : lidx) (it : item R).
  Definition state_ok {S} (s : @search R G S) : Prop := buf_ok it (se_buf s) /\ found c u irr it li (se_best s) (se_drawn s).
  Lemma uniform_loop_ok : forall n s s', hs_item (se_sampler s) = it -> pre_ok (se_sampler s) -> state_ok s ->
    uniform_loop n c u irr li it s = Ok s' -> state_ok s' /\ length (se_drawn s') = (n + length (se_drawn s))%nat.
  Proof.
    induction n as [|n IH]; intros s s' Hi Hp St H; cbn [uniform_loop] in H; [injection H as <-; auto|].
    apply rbind_ok in H as (s1 & E1 & H).
    assert (K : hs_item (se_sampler s1) = it /\ pre_ok (se_sampler s1) /\ state_ok s1 /\ length (se_drawn s1) = Datatypes.S (length (se_drawn s))).
    { unfold uniform_step in E1. apply rbind_ok in E1 as ([t g] & Et & E1). apply rbind_ok in E1 as ([buf r] & Ex & E1). injection E1 as <-.
      pose proof (hsample_ok _ _ _ _ Hp Et) as Rt. rewrite Hi in Rt. destruct St as (B & Fo).
      destruct (examine_spec _ _ _ _ _ _ _ _ _ B Ex) as (B' & Ar). destruct r as [cost|].
      - cbn [se_sampler se_drawn se_buf se_best]. destruct (tighten_keeps (se_sampler s) cost) as (Ti & Tp). rewrite Ti. split; [exact Hi|].
        split; [unfold pre_ok; rewrite Tp; exact Hp|]. split; [|rewrite app_length; cbn; lia]. split; [exact B'|].
        destruct Ar as (A1 & A2 & A3). cbn [se_best se_drawn]. eapply found_some; try eassumption. apply decompose_back. apply Rt.
      - cbn [se_sampler se_drawn se_buf se_best]. split; [exact Hi|]. split; [exact Hp|]. split; [|rewrite app_length; cbn; lia]. split; [exact B'|].
        cbn [se_best se_drawn]. apply found_none; assumption. }
    destruct K as (K1 & K2 & K3 & K4). destruct (IH _ _ K1 K2 K3 H) as (L1 & L2). split; [exact L1|lia].
  Qed.

  (** the local search keeps to the rotation it starts from, unless any is allowed *)
  Definition ls_ok (l : lsampler R) : Prop :=
    match it_rot it, ls_rot l with
    | RotNone, NNone => True
    | RotContinuous, NRange _ _ => True
    | RotDiscrete lst, NDiscrete r => exists a, In a lst /\ cos r = cos a /\ sin r = sin a
    | _, _ => False
    end.
  Lemma turns_compose : forall d : dtransf, turns (dt_rot d) (compose d).
  Proof. intros d. repeat split; reflexivity. Qed.
  Lemma ls_new_ok : forall d bb, rot_fine it (compose d) -> ls_ok (lsampler_new it d bb).
  Proof.
    intros d bb (_ & a & Al & T). unfold ls_ok, lsampler_new, nrot_of. cbn [ls_rot]. destruct (it_rot it) as [| |l]; auto.
    destruct (turns_compose d) as (C1 & _ & C3 & _). destruct T as (T1 & _ & T3 & _). exists a. split; [exact Al|]. split; congruence.
  Qed.
  Lemma ls_sample_ok : forall l g d g', ls_ok l -> lsampler_sample l g = (d, g') -> rot_fine it (compose d).
  Proof.
    intros l g d g' H E. split; [apply compose_affine|]. unfold lsampler_sample in E. unfold ls_ok in H.
    destruct (it_rot it) as [| |lst] eqn:Er; destruct (ls_rot l) as [|m sd|r]; try contradiction; cbn [nrot_sample] in E.
    - destruct (g_normal g _ _) as [x g2]. destruct (g_normal g2 _ _) as [y g3]. injection E as <- <-. exists 0. split; [reflexivity|].
      exact (turns_compose (DT 0 x y)).
    - destruct (g_normal g m sd) as [r g1]. destruct (g_normal g1 _ _) as [x g2]. destruct (g_normal g2 _ _) as [y g3]. injection E as <- <-.
      exists r. split; [exact Logic.I|exact (turns_compose (DT r x y))].
    - destruct (g_normal g _ _) as [x g2]. destruct (g_normal g2 _ _) as [y g3]. injection E as <- <-. destruct H as (a & Ia & Ec & Es).
      exists a. split; [exact Ia|]. unfold turns. rewrite <- Ec, <- Es. exact (turns_compose (DT r x y)).
  Qed.
  Lemma ls_shift_ok : forall l d, ls_ok l -> ls_ok (shift_mean l d).
  Proof. intros l d H. unfold ls_ok, shift_mean in *. cbn [ls_rot]. destruct (it_rot it), (ls_rot l); cbn; auto. Qed.
  Lemma ls_decay_ok : forall l pct l', ls_ok l -> decay_stddev l pct = Ok l' -> ls_ok l'.
  Proof.
    intros l pct l' H E. unfold decay_stddev, set_stddev in E. apply rbind_ok in E as ([] & _ & E). injection E as <-.
    unfold ls_ok in *. cbn [ls_rot]. destruct (it_rot it), (ls_rot l); cbn; auto.
  Qed.
  Lemma local_loop_ok : forall n is s s', ls_ok (se_sampler s) -> state_ok s ->
    rfold (local_step c u irr li it n) is s = Ok s' -> state_ok s' /\ length (se_drawn s') = (length is + length (se_drawn s))%nat.
  Proof.
    intros n. induction is as [|i is IH]; intros s s' Hl St H; cbn [rfold] in H; [injection H as <-; auto|].
    apply rbind_ok in H as (s1 & E1 & H).
    assert (K : ls_ok (se_sampler s1) /\ state_ok s1 /\ length (se_drawn s1) = Datatypes.S (length (se_drawn s))).
    { unfold local_step in E1. destruct (lsampler_sample (se_sampler s) (se_rng s)) as [d g] eqn:Es. pose proof (ls_sample_ok _ _ _ _ Hl Es) as Rt.
      apply rbind_ok in E1 as ([buf r] & Ex & E1). destruct St as (B & Fo). destruct (examine_spec _ _ _ _ _ _ _ _ _ B Ex) as (B' & Ar).
      destruct r as [cost|]; apply rbind_ok in E1 as (sm & Ed & E1); injection E1 as <-; cbn [se_sampler se_drawn].
      - split; [eapply ls_decay_ok; [|exact Ed]; apply ls_shift_ok; exact Hl|]. split; [|rewrite app_length; cbn; lia]. split; [exact B'|].
        cbn [se_best se_drawn]. destruct Ar as (A1 & A2 & A3). eapply found_some; try eassumption. reflexivity.
      - split; [eapply ls_decay_ok; eassumption|]. split; [|rewrite app_length; cbn; lia]. split; [exact B'|].
        cbn [se_best se_drawn]. apply found_none; assumption. }
    destruct K as (K1 & K2 & K3). destruct (IH _ _ K1 K2 H) as (L1 & L2). split; [exact L1|cbn; lia].
  Qed.
  Lemma found_some_stays : forall n is s s', (exists x, se_best s = Some x) -> rfold (local_step c u irr li it n) is s = Ok s' -> exists x, se_best s' = Some x.
  Proof.
    intros n. induction is as [|i is IH]; intros s s' Hs H; cbn [rfold] in H; [injection H as <-; exact Hs|].
    apply rbind_ok in H as (s1 & E1 & H). apply (IH s1); [|exact H]. unfold local_step in E1.
    destruct (lsampler_sample (se_sampler s) (se_rng s)) as [d g]. apply rbind_ok in E1 as ([buf r] & _ & E1).
    destruct r as [cost|]; apply rbind_ok in E1 as (sm & _ & E1); injection E1 as <-; cbn [se_best]; eauto.
  Qed.
  End Loops.

  Lemma sampler_new_ok : forall (it : item R) (cells : list (cell R dtransf)) bb h, hsampler_new it cells bb = Ok (Some h) -> hs_item h = it /\ pre_ok h.
  Proof.
    intros it cells bb h H. unfold hsampler_new in H. apply rbind_ok in H as (el & _ & H). apply rbind_ok in H as (rs & _ & H).
    destruct rs; [discriminate|]. injection H as <-. split; [reflexivity|]. unfold pre_ok. cbn [hs_pre]. eauto.
  Qed.

  Lemma sample_layout_found : forall li l it cfg g o g' drawn, sample_layout li l it cfg g = Ok (o, g', drawn) ->
    (lc_local cfg <= lc_samples cfg)%nat /\
    exists u best, p_surr (it_shape it) = Some u /\ option_map fst best = o /\
      found (ly_cde l) u (item_irrelevant (it_quality it) (all_hazards (ly_cde l))) it li best drawn /\
      match o with
      | Some _ => length drawn = lc_samples cfg
      | None => drawn = [] \/ length drawn = (lc_samples cfg - lc_local cfg)%nat
      end.
  Proof.
    intros li l it cfg g o g' drawn H. unfold sample_layout in H. apply rbind_ok in H as (u & Eu & H). apply expect_ok in Eu.
    destruct (Nat.leb (lc_local cfg) (lc_samples cfg)) eqn:Lb; [|discriminate]. cbn [rassert rbind] in H. apply Nat.leb_le in Lb. split; [exact Lb|].
    apply rbind_ok in H as (oo & _ & H). apply rbind_ok in H as (grid & _ & H). apply rbind_ok in H as (h & Eh & H).
    destruct h as [h|].
    - apply sampler_new_ok in Eh as (Hi & Hp). apply rbind_ok in H as (s & Es & H).
      apply uniform_loop_ok in Es as (St & Ln); [|exact Hi|exact Hp|].
      2:{ split; [apply buf_start|]. split; [constructor|]. cbn. tauto. }
      cbn [se_drawn length] in Ln. destruct St as (Bu & Fo). destruct (se_best s) as [[b cost]|] eqn:Eb.
      + apply rbind_ok in H as (s' & El & H). injection H as <- <- <-.
        pose proof El as El'.
        apply local_loop_ok in El as ((Bu' & Fo') & Ln'); cbn [se_sampler se_drawn se_buf se_best] in *.
        * apply found_some_stays in El' as ([b' cost'] & Eb'); [|cbn; eauto]. rewrite Eb'. exists u, (Some (b', cost')).
          split; [exact Eu|]. split; [reflexivity|]. split; [rewrite <- Eb'; exact Fo'|]. cbn. rewrite seq_length in Ln'. lia.
        * apply ls_new_ok. destruct Fo as (Fa & _ & _ & Id & _). rewrite Forall_forall in Fa. apply Fa. exact Id.
        * split; [exact Bu|exact Fo].
      + injection H as <- <- <-. exists u, None. split; [exact Eu|]. split; [reflexivity|]. split; [exact Fo|]. right. lia.
    - injection H as <- <- <-. exists u, None. split; [exact Eu|]. split; [reflexivity|]. split; [|auto]. split; [constructor|]. cbn. tauto.
  Qed.

  (** *** in terms of the specification *)
  Lemma tr_same : forall t p, tr_point (N := NL) t p = tr_point (N := RNum) t p.
  Proof. reflexivity. Qed.
  Lemma box_peaks : forall l c, cost_is l c -> l <> [] -> lbf_cost (x_max (bbox_of_points l)) (y_max (bbox_of_points l)) = c.
  Proof.
    intros l c (a & b & ((pa & Ia & Ea) & La) & ((pb & Ib & Eb) & Lb) & ->) NE.
    destruct (bbox_ok l NE) as (In & _ & (qx & Iqx & Eqx) & _ & (qy & Iqy & Eqy)).
    assert (E1 : x_max (bbox_of_points l) = a).
    { change (@bbox_of_points R NL l) with (@bbox_of_points R RNum l) in *. apply Rle_antisym; [rewrite <- Eqx; apply La; exact Iqx|].
      rewrite <- Ea. apply (In pa Ia). }
    assert (E2 : y_max (bbox_of_points l) = b).
    { change (@bbox_of_points R NL l) with (@bbox_of_points R RNum l) in *. apply Rle_antisym; [rewrite <- Eqy; apply Lb; exact Iqy|].
      rewrite <- Eb. apply (In pb Ib). }
    rewrite E1, E2. unfold lbf_cost. cbn [fadd fmul fofN NL RNumT]. replace (INR 10) with 10 by (cbn; ring). ring.
  Qed.
  Lemma cost_at_spec : forall it t c, cost_is (moved t (it_shape it)) c -> cost_at it t = c.
  Proof.
    intros it t c H. apply (box_peaks (moved t (it_shape it))); [exact H|]. destruct H as (a & _ & ((p & Ip & _) & _) & _). intros E. rewrite E in Ip. destruct Ip.
  Qed.
  Lemma acc_passes : forall l it irr u t, acc (ly_cde l) u irr it t <-> passes_both l it irr u t.
  Proof.
    intros l it irr u t. unfold acc, passes_both, passes, ask. split.
    - intros (A & B). rewrite A, B. auto.
    - intros (A & B). apply rbind_ok in A as (x & -> & A). apply rbind_ok in B as (y & -> & B). destruct x; [discriminate|]. destruct y; [discriminate|]. auto.
  Qed.
  Lemma sample_layout_ok : forall li l it cfg g o g' drawn, sample_layout li l it cfg g = Ok (o, g', drawn) ->
    exists irr u, tolerated l it irr /\ p_surr (it_shape it) = Some u /\
      Forall (fun t => rigid t /\ exists a, allowed (it_rot it) a /\ turns a t) drawn /\
      match o with
      | Some o => length drawn = lc_samples cfg /\ po_layout o = li /\ po_item o = it_id it /\
          In (compose (po_dt o)) drawn /\ passes_both l it irr u (compose (po_dt o)) /\
          forall t, In t drawn -> passes_both l it irr u t ->
            no_dearer (moved (compose (po_dt o)) (it_shape it)) (moved t (it_shape it))
      | None => (drawn = [] \/ length drawn = (lc_samples cfg - lc_local cfg)%nat) /\
          forall t, In t drawn -> ~ passes_both l it irr u t
      end.
  Proof.
    intros li l it cfg g o g' drawn H. apply sample_layout_found in H as (Lb & u & best & Eu & Eo & (Fr & Fo) & Ln).
    exists (item_irrelevant (it_quality it) (all_hazards (ly_cde l))), u. split; [intros e; apply item_irrelevant_spec|]. split; [exact Eu|].
    split.
    - eapply Forall_impl; [|exact Fr]. intros t (A & B). split; [exact (proj1 A)|exact B].
    - destruct best as [[b cost]|]; cbn in Eo; subst o.
      + destruct Fo as (F1 & F2 & F3 & F4 & F5 & F6). split; [exact Ln|]. split; [exact F1|]. split; [exact F2|]. split; [exact F3|].
        split; [apply acc_passes; exact F4|]. intros t It Pt c c' Hc Hc'. apply acc_passes in Pt. specialize (F6 t It Pt).
        rewrite F5 in F6. rewrite (cost_at_spec _ _ _ Hc), (cost_at_spec _ _ _ Hc') in F6. exact F6.
      + split; [exact Ln|]. intros t It Pt. apply acc_passes in Pt. exact (Fo t It Pt).
  Qed.
End L.
