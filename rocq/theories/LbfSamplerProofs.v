(** The sampler of the reference optimizer: which placements it can draw, and that
    tightening it loses nothing. *)
From Coq Require Import List Bool Arith ZArith Lia Permutation.
From Verif Require Import Base Num GeoModel HazardModel QTModel TransfModel HpgModel CdeModel CdeSpec
  PolyModel SlotMapModel LayoutModel ProblemModel ProblemSpec LbfModel BaseProofs Instances RigidProofs XformProofs RegionProofs ParityProofs
  HpgSpec HpgRegProofs HpgGenProofs HpgHistProofs HpgCellProofs HpgThmProofs HpgRectProofs CdeGeoThmProofs LbfSpec LbfProofs.
From Coq Require Import Reals Lra.
From Verif Require Import GeoModel HazardModel QTModel TransfModel HpgModel CdeModel CdeSpec GeoSpec PlaceSpec HpgSpec ShapeSpec LbfModel LbfSpec.
Import ListNotations.
Local Open Scope R_scope.

(** *** what a placement costs at least *)
Lemma region_in_box : forall r l p, (forall v, In v l -> in_rect r v) -> region l p -> in_rect r p.
Proof.
  intros r l p B H. destruct (on_border_dec l p) as [O|O]; [eapply border_in_box; eassumption|].
  destruct H as [H|H]; [contradiction|]. destruct (even_odd_box r l p B O H) as (P & Q). split; lra.
Qed.
Lemma region_peak_x : forall l p a, peak (@px R) l a -> region l p -> px p <= a.
Proof.
  intros l p a ((v & Iv & Ev) & L) H. assert (NE : l <> []) by (intros E; rewrite E in Iv; destruct Iv).
  destruct (bbox_ok l NE) as (B & _ & (w & Iw & Ew) & _). pose proof (region_in_box _ _ _ B H) as (X & _). specialize (L w Iw). lra.
Qed.
Lemma region_peak_y : forall l p a, peak (@py R) l a -> region l p -> py p <= a.
Proof.
  intros l p a ((v & Iv & Ev) & L) H. assert (NE : l <> []) by (intros E; rewrite E in Iv; destruct Iv).
  destruct (bbox_ok l NE) as (B & _ & _ & _ & (w & Iw & Ew)). pose proof (region_in_box _ _ _ B H) as (_ & Y). specialize (L w Iw). lra.
Qed.
Lemma moved_disk : forall t s q, rigid t -> pole_disk s -> edist q (pole_at t s) <= crad (p_poi s) -> region (moved t s) q.
Proof.
  intros t s q Rt (_ & D) H. destruct (rigid_surj t Rt q) as (x & ->). unfold pole_at in H. rewrite (rigid_dist t Rt) in H.
  destruct (rigid_sets t (p_pts s) x Rt) as (A & B & _). specialize (D x H). unfold moved.
  destruct (on_border_dec (p_pts s) x) as [O|O]; [left; apply A; exact O|]. right. apply B. split; [exact O|]. destruct D as [D|D]; [contradiction|exact D].
Qed.
Lemma cost_floor : forall t s k, rigid t -> pole_disk s -> cost_is (moved t s) k ->
  10 * (px (pole_at t s) + crad (p_poi s)) + (py (pole_at t s) + crad (p_poi s)) <= k.
Proof.
  intros t s k Rt D (a & b & Pa & Pb & ->). destruct (pole_at t s) as [x y] eqn:E. cbn [px py]. pose proof (proj1 D) as R0.
  assert (X : x + crad (p_poi s) <= a).
  { apply (region_peak_x _ (Pt (x + crad (p_poi s)) y) a Pa). apply moved_disk; [exact Rt|exact D|]. rewrite E. unfold edist. cbn [px py].
    replace ((x + crad (p_poi s) - x) ^ 2 + (y - y) ^ 2) with (crad (p_poi s) * crad (p_poi s)) by ring. rewrite sqrt_square; lra. }
  assert (Y : y + crad (p_poi s) <= b).
  { apply (region_peak_y _ (Pt x (y + crad (p_poi s))) b Pb). apply moved_disk; [exact Rt|exact D|]. rewrite E. unfold edist. cbn [px py].
    replace ((x - x) ^ 2 + (y + crad (p_poi s) - y) ^ 2) with (crad (p_poi s) * crad (p_poi s)) by ring. rewrite sqrt_square; lra. }
  lra.
Qed.

Lemma pole_moved_ne : forall t s, pole_disk s -> moved t s <> [].
Proof.
  intros t s Pd E. unfold moved in E. apply map_eq_nil in E. destruct (proj2 Pd (ccen (p_poi s))) as [(e & He & _)|K].
  - unfold in_disk, edist. replace ((px (ccen (p_poi s)) - px (ccen (p_poi s))) ^ 2 + (py (ccen (p_poi s)) - py (ccen (p_poi s))) ^ 2) with 0 by ring. rewrite sqrt_0. exact (proj1 Pd).
  - rewrite E in He. destruct He.
  - rewrite E in K. discriminate.
Qed.
Lemma cost_exists : forall l, l <> [] -> exists k, cost_is l k.
Proof.
  intros l NE. destruct (bbox_ok l NE) as (B & _ & (vx & Ix & Ex) & _ & (vy & Iy & Ey)).
  exists (10 * x_max (bbox_of_points (N := RNum) l) + y_max (bbox_of_points (N := RNum) l)). eexists _, _. split; [|split; [|reflexivity]]; (split; [eauto|]); intros p Hp; apply (B p Hp).
Qed.

Section L.
  Variable M : R.
  #[local] Instance NLP : Num R := RNumT Reqb M.
  #[local] Existing Instance RTrig.
  Context {ED : EqD (dtransf R)} {BS : BSearch} {G : Type} {RG : Rng R G} {X : Extra R}.
  Local Notation dtransf := (dtransf R).

  (** *** the cells of a new sampler *)
  Definition cell_part (bb b : rect R) (ce : cell R dtransf) : Prop := from_intersection (c_bbox' ce) bb = Some b.
  Lemma rfilter_ok : forall {A} (f : A -> res bool) l l', rfilter f l = Ok l' -> forall x, In x l' <-> In x l /\ f x = Ok true.
  Proof.
    induction l as [|y l IH]; intros l' H x; cbn [rfilter] in H; [injection H as <-; cbn; tauto|].
    apply rbind_ok in H as (b & Eb & H). apply rbind_ok in H as (r & Er & H). injection H as <-. specialize (IH _ Er x).
    destruct b; cbn [In]; rewrite IH; split; intros K; repeat destruct K as [K|K]; subst; intuition congruence.
  Qed.
  Lemma omap_in : forall {A B} (f : A -> option B) l y, In y (omap f l) <-> exists x, In x l /\ f x = Some y.
  Proof.
    induction l as [|x l IH]; intros y; cbn [omap]; [firstorder|]. destruct (f x) as [z|] eqn:E; cbn [In]; rewrite IH; split.
    - intros [<-|(w & A1 & A2)]; eauto.
    - intros (w & [<-|A1] & A2); [left; congruence|eauto].
    - intros (w & A1 & A2); eauto.
    - intros (w & [<-|A1] & A2); [congruence|eauto].
  Qed.
  Lemma rect_sampler_same : forall l rs, rmapM (rect_sampler (F := R)) l = Ok rs -> rs = l.
  Proof.
    induction l as [|b l IH]; intros rs H; cbn [rmapM] in H; [injection H as <-; reflexivity|].
    apply rbind_ok in H as (b' & Eb & H). apply rbind_ok in H as (r & Er & H). injection H as <-.
    unfold rect_sampler in Eb. destruct (_ && _); [|discriminate]. injection Eb as <-. f_equal. apply IH. exact Er.
  Qed.
  Lemma part_proper : forall bb b ce, cell_part bb b ce -> proper b.
  Proof.
    intros bb b ce H. unfold cell_part, from_intersection in H.
    destruct (flt _ _ && flt _ _) eqn:E in H; [|discriminate]. injection H as <-. apply andb_true_iff in E as (E1 & E2).
    cbn [flt NLP RNumT] in E1, E2. apply Rltb_spec in E1. apply Rltb_spec in E2. split; assumption.
  Qed.
  Lemma sampler_cells : forall (it : item R) (cells : list (cell R dtransf)) bb o, hsampler_new it cells bb = Ok o ->
    (forall b, In b (match o with Some h => hs_cells h | None => [] end) <->
       exists ce, In ce cells /\ could_accommodate ce (crad (p_poi (it_shape it))) (it_quality it) = Ok true /\ cell_part bb b ce) /\
    match o with Some h => hs_pre h = transl_m (- px (ccen (p_poi (it_shape it)))) (- py (ccen (p_poi (it_shape it)))) | None => True end.
  Proof.
    intros it cells bb o H. unfold hsampler_new in H. apply rbind_ok in H as (el & Eel & H). apply rbind_ok in H as (rs & Ers & H).
    apply rect_sampler_same in Ers. pose proof (rfilter_ok _ _ _ Eel) as Fe. subst rs.
    assert (K : forall b, In b (omap (fun c : cell R dtransf => from_intersection (c_bbox' c) bb) el) <->
      exists ce, In ce cells /\ could_accommodate ce (crad (p_poi (it_shape it))) (it_quality it) = Ok true /\ cell_part bb b ce).
    { intros b. rewrite omap_in. split; intros (ce & A & B); exists ce.
      - apply Fe in A as (A & C). auto.
      - destruct B as (B & C). split; [apply Fe; auto|exact C]. }
    destruct (omap _ el) as [|r0 rs] eqn:Eo; injection H as <-; (split; [|try reflexivity; exact I]); exact K.
  Qed.
  Lemma sampler_proper : forall (it : item R) (cells : list (cell R dtransf)) bb h, hsampler_new it cells bb = Ok (Some h) -> forall b, In b (hs_cells h) -> proper b.
  Proof.
    intros it cells bb h H b Hb. destruct (sampler_cells _ _ _ _ H) as (K & _). apply K in Hb as (ce & _ & _ & P). eapply part_proper. exact P.
  Qed.

  (** *** what it draws *)
  Definition pre_at (h : hsampler R) : Prop :=
    hs_pre h = transl_m (- px (ccen (p_poi (it_shape (hs_item h))))) (- py (ccen (p_poi (it_shape (hs_item h))))).
  Lemma pole_put : forall (s : poly R) d, pole_at (transform_from_decomposed (transl_m (- px (ccen (p_poi s))) (- py (ccen (p_poi s)))) d) s = Pt (dt_tx d) (dt_ty d).
  Proof.
    intros s [a x y]. destruct (p_poi s) as [[cx cy] r] eqn:E. unfold pole_at. rewrite E.
    unfold transform_from_decomposed, t_rotate_translate, dot_prod, rot_transl_m, transl_m, tr_point.
    cbn [m00 m01 m02 m10 m11 m12 m20 m21 m22 fadd fmul fneg f0 f1 fsin fcos NLP RNum RNumT RTrig ccen px py dt_tx dt_ty dt_rot].
    f_equal; ring.
  Qed.
  Lemma draw_in_cell : forall h g t g', in_bounds RG -> pre_at h -> (forall b, In b (hs_cells h) -> proper b) -> hsampler_sample h g = Ok (t, g') ->
    exists b g1 x y, In b (hs_cells h) /\ in_rect b (Pt x y) /\ pole_at t (it_shape (hs_item h)) = Pt x y /\
      x = fst (g_uniform g1 (x_min b) (x_max b)).
  Proof.
    intros h g t g' Bd Ep Pr H. unfold hsampler_sample in H. apply rbind_ok in H as ([b g1] & Eb & H). apply expect_ok in Eb. apply choose_in in Eb.
    apply rbind_ok in H as ([d g2] & Es & H). injection H as <- <-. unfold sample_rect in Es. apply rbind_ok in Es as ([a g3] & _ & Es).
    destruct (Pr b Eb) as (Px & Py). pose proof (Bd g3 _ _ Px) as Bx. destruct (g_uniform g3 _ _) as [x g4] eqn:Ux.
    pose proof (Bd g4 _ _ Py) as By. destruct (g_uniform g4 _ _) as [y g5]. injection Es as <- <-. cbn [fst] in *.
    exists b, g3, x, y. split; [exact Eb|]. split; [split; assumption|]. split; [rewrite Ep; exact (pole_put _ (DT a x y))|rewrite Ux; reflexivity].
  Qed.

  (** *** tightening *)
  Definition lost (r : R) (b : rect R) (best : R) : Prop := best <= 10 * (x_min b + r) + (y_min b + r).
  Lemma ten : forall x y, lbf_cost x y = 10 * x + y.
  Proof. intros x y. unfold lbf_cost. cbn [fadd fmul fofN NLP RNumT]. replace (INR 10) with 10 by (cbn; ring). ring. Qed.
  Lemma tighten_ok : forall h best, let r := crad (p_poi (it_shape (hs_item h))) in
    incl (hs_cells (tighten h best)) (hs_cells h) /\ forall b, In b (hs_cells h) -> In b (hs_cells (tighten h best)) \/ lost r b best.
  Proof.
    intros h best r. unfold tighten. destruct (flt best (hs_bound h)); [|split; [apply incl_refl|auto]]. cbn [hs_cells]. split.
    - intros b Hb. apply filter_In in Hb. apply Hb.
    - intros b Hb. destruct (flt (lbf_cost (x_min b + r)%num (y_min b + r)%num) best) eqn:E.
      + left. apply filter_In. split; [exact Hb|exact E].
      + right. unfold lost. rewrite ten in E. cbn [flt fadd NLP RNumT] in E. apply Rltb_nspec in E. lra.
  Qed.
  Section Loop.
  Variables (c : cde R dtransf) (u : surrogate R) (irr : list (entity dtransf)) (li : lidx) (it : item R).
  Local Notation r := (crad (p_poi (it_shape it))).
  Definition best_is (s : @search R G (hsampler R)) (P : R -> Prop) : Prop := exists o k, se_best s = Some (o, k) /\ P k.
  Record sampled (h : hsampler R) (s : @search R G (hsampler R)) : Prop := {
    sa_item : hs_item (se_sampler s) = it; sa_pre : pre_at (se_sampler s); sa_state : state_ok M c u irr li it s;
    sa_incl : incl (hs_cells (se_sampler s)) (hs_cells h);
    sa_lost : forall b, In b (hs_cells h) -> In b (hs_cells (se_sampler s)) \/ best_is s (lost r b);
    sa_drawn : in_bounds RG -> (forall b, In b (hs_cells h) -> proper b) ->
      forall t, In t (se_drawn s) -> exists b, In b (hs_cells h) /\ in_rect b (pole_at t (it_shape it)) }.
  Lemma loop_sampled : forall h n s s', sampled h s -> uniform_loop n c u irr li it s = Ok s' -> sampled h s'.
  Proof.
    intros h. induction n as [|n IH]; intros s s' Sa H; cbn [uniform_loop] in H; [injection H as <-; exact Sa|].
    apply rbind_ok in H as (s1 & E1 & H). refine (IH s1 s' _ H). clear IH H. destruct Sa as [S1 S2 S3 S4 S5 S6].
    assert (P0 : pre_ok M (se_sampler s)) by (unfold pre_ok; rewrite S2; eauto).
    assert (E1' : uniform_loop 1 c u irr li it s = Ok s1) by (cbn [uniform_loop]; rewrite E1; reflexivity).
    destruct (uniform_loop_ok M c u irr li it 1 s s1 S1 P0 S3 E1') as (S3' & _). clear E1'.
    unfold uniform_step in E1. apply rbind_ok in E1 as ([t g] & Et & E1). apply rbind_ok in E1 as ([buf o] & Ex & E1). injection E1 as E1.
    assert (D' : in_bounds RG -> (forall b, In b (hs_cells h) -> proper b) -> forall t', In t' (se_drawn s ++ [t]) -> exists b, In b (hs_cells h) /\ in_rect b (pole_at t' (it_shape it))).
    { intros Bd Pr t' Ht. apply in_app_or in Ht as [Ht|[<-|[]]]; [exact (S6 Bd Pr t' Ht)|].
      destruct (draw_in_cell (se_sampler s) (se_rng s) t g Bd S2 (fun b Hb => Pr b (S4 b Hb)) Et) as (b & _ & x & y & Hb & Ib & Ep & _).
      rewrite S1 in Ep. exists b. split; [exact (S4 b Hb)|]. rewrite Ep. exact Ib. }
    destruct S3 as (Bu & _). destruct (examine_spec M c u irr it _ _ _ _ _ Bu Ex) as (_ & Ar). destruct o as [cost|]; subst s1.
    - destruct Ar as (_ & _ & Lt). destruct (tighten_keeps M (se_sampler s) cost) as (T1 & T2). destruct (tighten_ok (se_sampler s) cost) as (I1 & I2).
      rewrite S1 in I2. split; cbn [se_sampler se_drawn se_best].
      + exact (eq_trans T1 S1).
      + unfold pre_at. exact (eq_trans (eq_trans T2 S2) (f_equal (fun i => transl_m (- px (ccen (p_poi (it_shape i)))) (- py (ccen (p_poi (it_shape i))))) (eq_sym T1))).
      + exact S3'.
      + eapply incl_tran; [exact I1|exact S4].
      + intros b Hb. destruct (S5 b Hb) as [K|(o & k & Eo & K)].
        * destruct (I2 b K) as [K'|K']; [left; exact K'|right; eexists _, cost; split; [reflexivity|exact K']].
        * right. eexists _, cost. split; [reflexivity|]. rewrite Eo in Lt. unfold lost in *. lra.
      + exact D'.
    - split; cbn [se_sampler se_drawn se_best]; auto.
  Qed.
  End Loop.
  Lemma start_sampled : forall c u irr li it (cells : list (cell R dtransf)) bb h g, hsampler_new it cells bb = Ok (Some h) ->
    sampled c u irr li it h (Se g h (strip_surrogate (it_shape it)) None []).
  Proof.
    intros c u irr li it cells bb h g H. destruct (sampler_new_ok M _ _ _ _ H) as (Hi & _). destruct (sampler_cells _ _ _ _ H) as (_ & Hp).
    split; cbn [se_sampler se_drawn se_best].
    - exact Hi.
    - unfold pre_at. rewrite Hi. exact Hp.
    - split; [apply buf_start|]. split; [constructor|]. cbn. tauto.
    - apply incl_refl.
    - auto.
    - intros _ _ t [].
  Qed.
  (** no cell is given up from which a cheaper placement could be drawn *)
  Lemma tighten_loses_nothing : forall c u irr li it (cells : list (cell R dtransf)) bb h (g : G) n s,
    hsampler_new it cells bb = Ok (Some h) -> pole_disk (it_shape it) ->
    uniform_loop n c u irr li it (Se g h (strip_surrogate (it_shape it)) None []) = Ok s ->
    incl (hs_cells (se_sampler s)) (hs_cells h) /\
    forall b, In b (hs_cells h) -> ~ In b (hs_cells (se_sampler s)) ->
    exists o best, se_best s = Some (o, best) /\ cost_is (moved (compose (po_dt o)) (it_shape it)) best /\
      forall t k, rigid t -> in_rect b (pole_at t (it_shape it)) -> cost_is (moved t (it_shape it)) k -> best <= k.
  Proof.
    intros c u irr li it cells bb h g n s Hn Pd H. destruct (loop_sampled c u irr li it h n _ _ (start_sampled c u irr li it cells bb h g Hn) H) as [S1 S2 S3 S4 S5 _].
    split; [exact S4|]. intros b Hb Nb. destruct (S5 b Hb) as [K|(o & k & Eo & L)]; [contradiction|]. exists o, k. split; [exact Eo|].
    destruct S3 as (_ & Fo). rewrite Eo in Fo. destruct Fo as (_ & _ & _ & _ & _ & Ek & _). split.
    - destruct (cost_exists _ (pole_moved_ne (compose (po_dt o)) _ Pd)) as (k' & C). pose proof (cost_at_spec M it (compose (po_dt o)) _ C) as Ec.
      rewrite Ek. exact (eq_ind_r (cost_is (moved (compose (po_dt o)) (it_shape it))) C Ec).
    - intros t k' Rt Hin C. pose proof (cost_floor t _ _ Rt Pd C) as Fl. unfold lost in L. destruct Hin as ((X1 & _) & (Y1 & _)).
      cbn [px py] in *. lra.
  Qed.

  Lemma draws_from_cells : forall c u irr li it (cells : list (cell R dtransf)) bb h (g : G) n s, in_bounds RG ->
    hsampler_new it cells bb = Ok (Some h) ->
    uniform_loop n c u irr li it (Se g h (strip_surrogate (it_shape it)) None []) = Ok s ->
    forall t, In t (se_drawn s) -> exists b, In b (hs_cells h) /\ in_rect b (pole_at t (it_shape it)).
  Proof.
    intros c u irr li it cells bb h g n s Bd Hn H. destruct (loop_sampled c u irr li it h n _ _ (start_sampled c u irr li it cells bb h g Hn) H) as [_ _ _ _ _ S6].
    exact (S6 Bd (sampler_proper _ _ _ _ Hn)).
  Qed.

  (** *** every feasible placement can be drawn *)
  Hypothesis BSok : bsearch_ok BS.
  Section Reach.
  Variables (bb : rect R) (sts : list (hazard R dtransf)) (As : list (fact R dtransf)) (g0 g : hpg R dtransf) (dim : R) (outer : arc R) (it : item R) (o : option (hsampler R)).
  Hypotheses (Pb : proper bb) (Ac : Forall (fun h => h_active h = true) sts)
    (Dy : forall f, In f As -> exists h, f = fact_of h /\ grid_hazard h /\ poles_inside (a_obj (h_shape h)))
    (Fr : fresh M bb sts dim g0) (G3 : same_grid (hg_grid g0) (hg_grid g)) (Ow : all_cells (owned_cell [] As) (hg_grid g))
    (He : In (hazard_new BinExterior outer) sts) (Sp : sound_poly (a_obj outer)) (Sub : forall p, in_open_rect (p_bbox (a_obj outer)) p -> in_rect bb p)
    (Hn : hsampler_new it (omap (fun x => x) (g_cells (hg_grid g))) (p_bbox (a_obj outer)) = Ok o)
    (Pd : pole_disk (it_shape it)) (Rm : crad (p_poi (it_shape it)) < M).
  Variables (t : transf R) (irr : list (entity dtransf)).
  Hypotheses (Rt : rigid t) (Ir : relevant_irr (it_quality it) irr) (Fe : feasible (tr_poly t (it_shape it)) irr (map fact_of sts ++ As)).
  Local Notation p := (pole_at t (it_shape it)).
  Lemma Dk : forall x, edist x p <= crad (p_poi (it_shape it)) -> region (p_pts (tr_poly t (it_shape it))) x.
  Proof. intros x Hx. exact (moved_disk t _ x Rt Pd Hx). Qed.
  Lemma edist_self : forall x, edist x x = 0.
  Proof. intros x. unfold edist. replace ((px x - px x) ^ 2 + (py x - py x) ^ 2) with 0 by ring. apply sqrt_0. Qed.
  Lemma pole_region : region (p_pts (tr_poly t (it_shape it))) p.
  Proof. apply Dk. rewrite edist_self. exact (proj1 Pd). Qed.
  Lemma not_blocked : forall x, region (p_pts (tr_poly t (it_shape it))) x -> forall h, In h sts -> ent_universal (h_ent h) = true -> ~ blocked (fact_of h) x.
  Proof.
    intros x Rx h Hh U Bl. refine (Fe (fact_of h) _ _ _ x Rx Bl).
    - apply in_or_app. left. apply in_map. exact Hh.
    - rewrite Forall_forall in Ac. apply Ac. exact Hh.
    - intros K. destruct (Ir _ K) as (k & z & i & _ & Q & _). change (f_ent (fact_of h)) with (h_ent h) in Q. rewrite Q in U. discriminate.
  Qed.
  Lemma open_region : forall x, region (p_pts (tr_poly t (it_shape it))) x -> in_open_rect (p_bbox (a_obj outer)) x.
  Proof.
    intros x Rx. pose proof (not_blocked x Rx _ He eq_refl) as Nb. unfold blocked in Nb. cbn in Nb.
    destruct (on_border_dec (p_pts (a_obj outer)) x) as [O|O]; [exfalso; apply Nb; left; exact O|].
    destruct (even_odd (p_pts (a_obj outer)) x) eqn:Eo; [|exfalso; apply Nb; right; reflexivity].
    exact (even_odd_box _ _ _ (proj2 (proj2 Sp)) O Eo).
  Qed.
  (** the cell of the grid a point of the placed item lies in *)
  Lemma cell_of : 0 < dim /\ forall x, region (p_pts (tr_poly t (it_shape it))) x ->
    exists ce i j, In (Some ce) (g_cells (hg_grid g)) /\ in_rect (c_bbox' ce) x /\ c_bbox' ce = square bb dim i j.
  Proof.
    split; [exact (fr_dim _ _ _ _ _ Fr)|]. intros x Rx.
    destruct (HpgGenProofs.covers M bb sts dim g0 x Pb Fr (Sub x (open_region x Rx))) as [(ce0 & Hc0 & Ic0)|(h & Hh & U & Bl)]; [|exfalso; exact (not_blocked x Rx h Hh U Bl)].
    apply In_nth_error in Hc0 as (i & Hi). 
    assert (Hci : cell_at (hg_grid g0) i = Some ce0) by (unfold cell_at; rewrite Hi; reflexivity).
    pose proof G3 as (_ & _ & _ & G3'). specialize (G3' i). rewrite Hci in G3'. destruct (cell_at (hg_grid g) i) as [ce|] eqn:Ec; [|contradiction].
    destruct G3' as (_ & _ & _ & _ & Eb).
    destruct (fr_cells _ _ _ _ _ Fr i ce0 Hci) as (_ & _ & _ & i' & j' & Sq & _).
    exists ce, i', j'. split; [|rewrite Eb; auto].
    unfold cell_at in Ec. destruct (nth_error (g_cells (hg_grid g)) i) as [[y|]|] eqn:En; try discriminate. injection Ec as ->. eapply nth_error_In. exact En.
  Qed.
  (** a cell with the pole in it is among those sampled *)
  Lemma eligible : forall ce i j, 0 < dim -> In (Some ce) (g_cells (hg_grid g)) -> in_rect (c_bbox' ce) p -> c_bbox' ce = square bb dim i j ->
    exists h b, o = Some h /\ In b (hs_cells h) /\ in_rect b p /\ x_min b = Rmax (x_min (c_bbox' ce)) (x_min (p_bbox (a_obj outer))).
  Proof.
    intros ce i j Dm Hce Ice Sq. pose proof (open_region p pole_region) as Op.
    assert (Hom : In ce (omap (fun x : option (cell R dtransf) => x) (g_cells (hg_grid g)))) by (apply omap_in; exists (Some ce); auto).
    destruct (sampler_cells _ _ _ _ Hn) as (K & _).
    assert (Acc : could_accommodate ce (crad (p_poi (it_shape it))) (it_quality it) = Ok true).
    { pose proof Hn as Hn'. unfold hsampler_new in Hn'. apply rbind_ok in Hn' as (el & Eel & _).
      assert (T : forall l el, rfilter (fun c : cell R dtransf => could_accommodate c (crad (p_poi (it_shape it))) (it_quality it)) l = Ok el -> In ce l -> exists b, could_accommodate ce (crad (p_poi (it_shape it))) (it_quality it) = Ok b).
      { clear. induction l as [|y l IH]; intros el H Hin; [destruct Hin|]. cbn [rfilter] in H. apply rbind_ok in H as (b & Eb & H). apply rbind_ok in H as (r & Er & H).
        destruct Hin as [->|Hin]; [eauto|exact (IH _ Er Hin)]. }
      destruct (T _ _ Eel Hom) as ([|] & Eb'); [exact Eb'|]. exfalso.
      exact (discard_state M sts As ce _ _ Ac Dy (proj2 (every_all _ _) Ow ce Hce) (proj2 (every_all _ _) (same_static M bb sts dim g0 _ Fr G3) ce Hce) Eb' Rm (tr_poly t (it_shape it)) irr p Ir Ice Dk Fe). }
    assert (Pt : exists b, cell_part (p_bbox (a_obj outer)) b ce /\ in_rect b p /\ x_min b = Rmax (x_min (c_bbox' ce)) (x_min (p_bbox (a_obj outer)))).
    { rewrite Sq in Ice. unfold square in Ice. destruct Ice as ((A1 & A2) & (A3 & A4)). cbn [x_min x_max y_min y_max] in *. destruct Op as ((B1 & B2) & (B3 & B4)).
      unfold cell_part, from_intersection. rewrite Sq. unfold square. cbn [x_min x_max y_min y_max fmax fmin flt NLP RNumT].
      set (cx := x_min bb + dim * INR i) in *. set (cy := y_min bb + dim * INR j) in *. clearbody cx cy.
      assert (L1 : Rltb (Rmax cx (x_min (p_bbox (a_obj outer)))) (Rmin (cx + dim) (x_max (p_bbox (a_obj outer)))) = true).
      { apply Rltb_spec. apply Rmax_lub_lt; apply Rmin_glb_lt; lra. }
      assert (L2 : Rltb (Rmax cy (y_min (p_bbox (a_obj outer)))) (Rmin (cy + dim) (y_max (p_bbox (a_obj outer)))) = true).
      { apply Rltb_spec. apply Rmax_lub_lt; apply Rmin_glb_lt; lra. }
      eexists. split; [rewrite L1, L2; reflexivity|]. split; [|reflexivity].
      split; cbn [x_min x_max y_min y_max]; split; try (apply Rmax_lub; lra); apply Rmin_glb; lra. }
    destruct Pt as (b & Pb' & Ib). assert (Hb : In b (match o with Some h => hs_cells h | None => [] end)) by (apply K; exists ce; auto).
    destruct o as [h|]; [|destruct Hb]. exists h, b. auto.
  Qed.
  Lemma feasible_cell : exists h b, o = Some h /\ In b (hs_cells h) /\ in_rect b p.
  Proof.
    destruct cell_of as (Dm & C). destruct (C p pole_region) as (ce & i & j & Hce & Ice & Sq).
    destruct (eligible ce i j Dm Hce Ice Sq) as (h & b & A1 & A2 & A3 & _). eauto.
  Qed.
  (** there is even one that reaches further left than the pole *)
  Lemma feasible_cell_left : 0 < crad (p_poi (it_shape it)) -> exists h b, o = Some h /\ In b (hs_cells h) /\ in_rect b p /\ x_min b < px p.
  Proof.
    intros Rp. destruct cell_of as (Dm & C). set (r := crad (p_poi (it_shape it))) in *.
    pose proof (open_region p pole_region) as ((B1 & B2) & _).
    (* the grid line left of the pole *)
    assert (Gl : exists k : Z, x_min bb + dim * IZR k < px p <= x_min bb + dim * (IZR k + 1)).
    { exists (- up (- ((px p - x_min bb) / dim)))%Z. destruct (archimed (- ((px p - x_min bb) / dim))) as (U1 & U2).
      rewrite opp_IZR. set (u := IZR (up (- ((px p - x_min bb) / dim)))) in *. clearbody u.
      assert (Xd : px p - x_min bb = dim * ((px p - x_min bb) / dim)) by (field; lra). set (v := (px p - x_min bb) / dim) in *. clearbody v. split; nra. }
    destruct Gl as (k & Gl1 & Gl2). set (lo := x_min bb + dim * IZR k) in *.
    set (e := Rmin r (Rmin (px p - lo) (px p - x_min (p_bbox (a_obj outer)))) / 2).
    assert (He' : 0 < e /\ e < r /\ e < px p - lo).
    { unfold e. set (m := Rmin (px p - lo) (px p - x_min (p_bbox (a_obj outer)))). assert (0 < m) by (apply Rmin_glb_lt; lra).
      assert (m <= px p - lo) by apply Rmin_l. assert (0 < Rmin r m) by (apply Rmin_glb_lt; lra).
      pose proof (Rmin_l r m). pose proof (Rmin_r r m). lra. }
    destruct He' as (He1 & He2 & He3). clearbody e.
    assert (Rq : region (p_pts (tr_poly t (it_shape it))) (Pt (px p - e) (py p))).
    { apply Dk. unfold edist. cbn [px py]. replace ((px p - e - px p) ^ 2 + (py p - py p) ^ 2) with (e ^ 2) by ring.
      rewrite sqrt_pow2 by lra. fold r. lra. }
    destruct (C _ Rq) as (ce & i & j & Hce & ((I1 & I2) & (I3 & I4)) & Sq). rewrite Sq in I1, I2, I3, I4. unfold square in *. cbn [px py x_min x_max y_min y_max] in *.
    assert (Ek : IZR k = INR i).
    { rewrite INR_IZR_INZ in *. assert (A : (k < Z.of_nat i + 1)%Z).
      { apply lt_IZR. rewrite plus_IZR. unfold lo in *. nra. }
      assert (B : (Z.of_nat i < k + 1)%Z).
      { apply lt_IZR. rewrite plus_IZR. unfold lo in *. nra. }
      f_equal. lia. }
    assert (Ice : in_rect (c_bbox' ce) p).
    { rewrite Sq. split; cbn [x_min x_max y_min y_max]; [|lra]. unfold lo in *. rewrite <- Ek in *. split; [lra|]. lra. }
    destruct (eligible ce i j Dm Hce Ice Sq) as (h & b & A1 & A2 & A3 & A4). exists h, b. split; [exact A1|]. split; [exact A2|]. split; [exact A3|].
    rewrite A4, Sq. cbn [x_min]. apply Rmax_lub_lt; [|exact B1]. unfold lo in *. rewrite <- Ek. lra.
  Qed.
  End Reach.
End L.
