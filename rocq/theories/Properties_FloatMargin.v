(** Statements about rounding with a margin: C77.  [B2R x] is the exact value of the float
    [x].  [within k x]: [x] is finite and at most [2^k].  [margin prec k]: [2^(2k+6-prec)], 64
    units in the last place of a product of two coordinates; compared with twice the signed
    area of the triangle of a segment and a point (FloatMarginSpec.v). *)
From Coq Require Import ZArith Bool List.
From Flocq Require Import Core IEEE754.BinarySingleNaN.
From Verif Require Import Base Num FloatModel GeoModel HazardModel QTModel TransfModel HpgModel CdeModel CdeSpec Instances
  GeoSpec SimplSpec SimpleSpec PlaceSpec FloatSpec FloatMarginSpec FloatExampleProofs FloatRefuteProofs FloatCornerProofs FloatMarginProofs FloatMarginThmProofs FloatMarginExampleProofs.
From Coq Require Import Reals.
From Verif Require Import GeoModel HazardModel QTModel TransfModel CdeModel CdeSpec GeoSpec SimplSpec SimpleSpec PlaceSpec FloatSpec FloatMarginSpec.
Import ListNotations.
Local Open Scope R_scope.

(** *** C77: the tests are right with a margin *)
(** two segments *)
Theorem C77_segments_partial :
  forall (prec emax : Z) (Hp : Prec_gt_0 prec) (Hm : Prec_lt_emax prec emax) (umax : nat) (alm : binary_float prec emax -> binary_float prec emax -> bool) (k : Z),
  (0 <= k)%Z -> (2 * k + 3 < emax)%Z -> (1 < prec)%Z ->
  let N := FloatNum prec emax Hp Hm umax alm in
  forall f g : edge (binary_float prec emax), edge_within k f -> edge_within k g ->
  (clear_cross (margin prec k) (im_edge B2R f) (im_edge B2R g) -> ee_collides (N := N) f g = true) /\
  (clear_miss (margin prec k) (im_edge B2R f) (im_edge B2R g) -> ee_collides (N := N) f g = false).
Proof.
  intros prec emax Hp Hm umax alm k H0 H1 H2 N f g Wf Wg.
  exact (conj (cross_found Hp Hm umax alm k H0 H1 f g Wf Wg) (miss_found Hp Hm umax alm k H0 H1 f g H2 Wf Wg)).
Qed.
Print Assumptions C77_segments_partial.
(** a segment and a rectangle *)
Theorem C77_rectangles_partial :
  forall (prec emax : Z) (Hp : Prec_gt_0 prec) (Hm : Prec_lt_emax prec emax) (umax : nat) (alm : binary_float prec emax -> binary_float prec emax -> bool) (k : Z),
  (0 <= k)%Z -> (2 * k + 3 < emax)%Z ->
  let N := FloatNum prec emax Hp Hm umax alm in
  let m := margin prec k in
  forall (r : rect (binary_float prec emax)) (e : edge (binary_float prec emax)), rect_within k r -> edge_within k e ->
  (proper (im_rect B2R r) -> clear_hit m (im_rect B2R r) (im_edge B2R e) -> re_collides (N := N) r e = true) /\
  ((forall c, In c (q4list (corners (im_rect B2R r))) -> clear_left m (im_edge B2R e) c) \/
   (forall c, In c (q4list (corners (im_rect B2R r))) -> clear_right m (im_edge B2R e) c) ->
   ~ in_rect (im_rect B2R r) (es (im_edge B2R e)) -> ~ in_rect (im_rect B2R r) (ee (im_edge B2R e)) -> re_collides (N := N) r e = false).
Proof.
  intros prec emax Hp Hm umax alm k H0 H1 N m r e Wr We.
  exact (conj (fun Pr => hit_found Hp Hm umax alm k H0 H1 r e Pr Wr We) (rect_missed Hp Hm umax alm k H0 H1 r e Wr We)).
Qed.
Print Assumptions C77_rectangles_partial.

(** *** C77: the engine reports a clear crossing if its nodes are clear, too *)
Theorem C77_crossing_reported_partial :
  forall (prec emax : Z) (Hp : Prec_gt_0 prec) (Hm : Prec_lt_emax prec emax) (umax : nat) (alm : binary_float prec emax -> binary_float prec emax -> bool) (k : Z),
  (0 <= k)%Z -> (2 * k + 3 < emax)%Z ->
  let N := FloatNum prec emax Hp Hm umax alm in
  let m := margin prec k in
  forall (D : Type) (ED : EqD D) (BS : BSearch), bsearch_ok BS ->
  forall bb (statics : list (hazard _ D)) depth n_cells ops (c : cde _ D) sn,
  valid (N := N) statics ops -> engine (N := N) bb statics depth n_cells ops = Ok (c, sn) -> rect_within k bb ->
  forall f e g irr, In f (facts statics ops) -> ~ In (f_ent f) irr -> side (p_pts (fact_poly f)) g ->
  edge_within k e -> edge_within k g -> rect_within k (p_bbox (fact_poly f)) -> proper (im_rect B2R (p_bbox (fact_poly f))) ->
  clear_cross m (im_edge B2R e) (im_edge B2R g) -> clear_path (N := N) m depth bb e g (p_bbox (fact_poly f)) ->
  ask (N := N) c (AskQuery (edge_query (N := N) e) irr) = Ok TTrue.
Proof. intros prec emax Hp Hm umax alm k H0 H1 N m D ED BS BO. exact (clear_reported Hp Hm umax alm k H0 H1 BO). Qed.
Print Assumptions C77_crossing_reported_partial.
Theorem C77_polygon_rejected_partial :
  forall (prec emax : Z) (Hp : Prec_gt_0 prec) (Hm : Prec_lt_emax prec emax) (umax : nat) (alm : binary_float prec emax -> binary_float prec emax -> bool) (k : Z),
  (0 <= k)%Z -> (2 * k + 3 < emax)%Z ->
  let N := FloatNum prec emax Hp Hm umax alm in
  let m := margin prec k in
  forall (D : Type) (ED : EqD D) (BS : BSearch), bsearch_ok BS ->
  forall bb (statics : list (hazard _ D)) depth n_cells ops (c : cde _ D) sn,
  valid (N := N) statics ops -> engine (N := N) bb statics depth n_cells ops = Ok (c, sn) -> rect_within k bb ->
  forall f s e g irr, good_poly (N := N) s -> side (p_pts s) e -> In f (facts statics ops) -> ~ In (f_ent f) irr -> side (p_pts (fact_poly f)) g ->
  edge_within k e -> edge_within k g -> rect_within k (p_bbox (fact_poly f)) -> proper (im_rect B2R (p_bbox (fact_poly f))) ->
  clear_cross m (im_edge B2R e) (im_edge B2R g) -> clear_path (N := N) m depth bb e g (p_bbox (fact_poly f)) ->
  ask (N := N) c (AskPoly s irr) = Ok TTrue.
Proof. intros prec emax Hp Hm umax alm k H0 H1 N m D ED BS BO. exact (clear_rejected Hp Hm umax alm k H0 H1 BO). Qed.
Print Assumptions C77_polygon_rejected_partial.
(** without subdivision, a reported edge does not clearly miss all edges of hazards *)
Theorem C77_no_clear_alarm_partial :
  forall (prec emax : Z) (Hp : Prec_gt_0 prec) (Hm : Prec_lt_emax prec emax) (umax : nat) (alm : binary_float prec emax -> binary_float prec emax -> bool) (k : Z),
  (0 <= k)%Z -> (2 * k + 3 < emax)%Z ->
  let N := FloatNum prec emax Hp Hm umax alm in
  let m := margin prec k in
  forall (D : Type) (ED : EqD D) (BS : BSearch), bsearch_ok BS ->
  forall bb (statics : list (hazard _ D)) depth n_cells ops (c : cde _ D) sn,
  valid (N := N) statics ops -> engine (N := N) bb statics depth n_cells ops = Ok (c, sn) ->
  forall e irr, depth = 0%nat -> (1 < prec)%Z -> edge_within k e ->
  (forall f g, In f (facts statics ops) -> side (p_pts (fact_poly f)) g -> edge_within k g) ->
  ask (N := N) c (AskQuery (edge_query (N := N) e) irr) = Ok TTrue ->
  exists f g, In f (facts statics ops) /\ ~ In (f_ent f) irr /\ side (p_pts (fact_poly f)) g /\ ~ clear_miss m (im_edge B2R e) (im_edge B2R g).
Proof. intros prec emax Hp Hm umax alm k H0 H1 N m D ED BS BO. exact (no_clear_alarm Hp Hm umax alm k H0 H1 BO). Qed.
Print Assumptions C77_no_clear_alarm_partial.
(** a crossing in a quadtree of depth 2 that meets all hypotheses *)
Example C77_hypotheses : forall (prec emax : Z) (Hp : Prec_gt_0 prec) (Hm : Prec_lt_emax prec emax) (umax : nat), (24 <= prec)%Z -> (prec + 9 < emax)%Z ->
  let N := FloatNum prec emax Hp Hm umax Beqb in
  exists f c sn,
    valid (N := N) (ED := NatEqD) (fb_st Hp Hm umax) (fb_ops Hp Hm umax) /\
    engine (N := N) (ED := NatEqD) (BS := LinSearch) (fb_bb Hp Hm) (fb_st Hp Hm umax) 2 0 (fb_ops Hp Hm umax) = Ok (c, sn) /\ rect_within 7 (fb_bb Hp Hm) /\
    In f (facts (ED := NatEqD) (fb_st Hp Hm umax) (fb_ops Hp Hm umax)) /\ side (p_pts (fact_poly f)) (x_haz Hp Hm) /\ edge_within 7 (x_edge Hp Hm) /\ edge_within 7 (x_haz Hp Hm) /\
    rect_within 7 (p_bbox (fact_poly f)) /\ proper (im_rect B2R (p_bbox (fact_poly f))) /\
    clear_cross (margin prec 7) (im_edge B2R (x_edge Hp Hm)) (im_edge B2R (x_haz Hp Hm)) /\
    clear_path (N := N) (margin prec 7) 2 (fb_bb Hp Hm) (x_edge Hp Hm) (x_haz Hp Hm) (p_bbox (fact_poly f)).
Proof. intros prec emax Hp Hm umax H24 Hx. exact (x_hyps Hp Hm umax H24 Hx). Qed.

(** *** C77: near the corner of a node a clear overlap is accepted.
    Two simple polygons in [f32] overlap in a rectangle of 700 by 280 units; the engine rejects
    the second one without subdivision and accepts it with quadtrees of depth 1 to 5. *)
Theorem C77_verdict_up_to_rounding_refuted : forall (umax : nat) (alm : f32 -> f32 -> bool),
  (forall x y, is_finite x = true -> is_finite y = true -> alm x y = true -> Rabs (B2R x - B2R y) <= 1) ->
  let N := FloatNum 24 128 prec32 emax32 umax alm in
  forall d, (1 <= d <= 5)%nat ->
  exists (bb : rect f32) (ops : list (op f32 nat)) (s : poly f32) c sn f,
    valid (N := N) (ED := NatEqD) [] ops /\ engine (N := N) (ED := NatEqD) (BS := LinSearch) bb [] d 0 ops = Ok (c, sn) /\
    framed (im_rect B2R bb) (map (im_fact B2R) (facts (ED := NatEqD) [] ops)) /\
    good_facts (map (im_fact B2R) (facts (ED := NatEqD) [] ops)) /\ all_active (map (im_fact B2R) (facts (ED := NatEqD) [] ops)) /\
    good_shape (im_poly B2R s) /\ box_inside (im_rect B2R bb) (im_poly B2R s) /\
    ask (N := N) (ED := NatEqD) c (AskPoly s []) = Ok TFalse /\
    In f (map (im_fact B2R) (facts (ED := NatEqD) [] ops)) /\ simple (p_pts (f_poly f)) /\ simple (p_pts (im_poly B2R s)) /\
    (forall p, 150 <= px p <= 850 -> -1230 <= py p <= -950 -> interior (p_pts (im_poly B2R s)) p /\ strictly_blocked f p) /\
    exists c0 sn0, engine (N := N) (ED := NatEqD) (BS := LinSearch) bb [] 0 0 ops = Ok (c0, sn0) /\
      ask (N := N) (ED := NatEqD) c0 (AskPoly s []) = Ok TTrue.
Proof. exact corner_accepted. Qed.
Print Assumptions C77_verdict_up_to_rounding_refuted.
