(** Statements about rounding: C74 and C75.  [B2R x] is the exact value of the float [x];
    [im_poly B2R s], [im_rect B2R r], ... is the object with the exact values.  [FloatNum]
    is IEEE 754 arithmetic of any precision and range (FloatModel.v); [alm] is the tolerant
    comparison of the external crate.  [on_grid e B x]: [x] is a multiple of [2^e] of at
    most [B] units (FloatSpec.v). *)
From Coq Require Import ZArith Bool List.
From Flocq Require Import Core IEEE754.BinarySingleNaN.
From Verif Require Import Base Num FloatModel GeoModel HazardModel QTModel TransfModel HpgModel CdeModel CdeSpec Instances
  GeoSpec PlaceSpec FloatSpec FloatGeoProofs FloatGridProofs FloatThmProofs FloatExampleProofs FloatRefuteProofs.
From Coq Require Import Reals.
From Verif Require Import GeoModel HazardModel QTModel TransfModel CdeModel CdeSpec GeoSpec PlaceSpec FloatSpec.
Import ListNotations.
Local Open Scope R_scope.

(** *** C74: on a grid, floating point answers are the exact answers *)
Theorem C74_same_answers :
  forall (prec emax : Z) (Hp : Prec_gt_0 prec) (Hm : Prec_lt_emax prec emax) (umax : nat) (alm : binary_float prec emax -> binary_float prec emax -> bool) (e B : Z),
  fits (prec := prec) (emax := emax) e B -> tells_apart e B alm -> (1 < prec)%Z ->
  let N := FloatNum prec emax Hp Hm umax alm in
  forall (D : Type) (ED : EqD D) (BS : BSearch), bsearch_uniform BS ->
  forall bb (statics : list (hazard _ D)) depth n_cells ops (c : cde _ D) sn,
  box_on (S depth) e B bb -> Forall (hazard_on e B) statics -> Forall (op_on e B) ops ->
  engine (N := N) bb statics depth n_cells ops = Ok (c, sn) ->
  exists c' sn',
    engine (N := RNum) (im_rect B2R bb) (map (im_hazard B2R) statics) depth 0 (map (im_op B2R) ops) = Ok (c', sn') /\
    (forall s irr, poly_on e B s -> ask (N := N) c (AskPoly s irr) = ask (N := RNum) c' (AskPoly (im_poly B2R s) irr)) /\
    (forall g irr, edge_on e B g -> ask (N := N) c (AskEdge g irr) = ask (N := RNum) c' (AskEdge (im_edge B2R g) irr) /\
      ask (N := N) c (AskQuery (edge_query (N := N) g) irr) = ask (N := RNum) c' (AskQuery (edge_query (N := RNum) (im_edge B2R g)) irr)) /\
    (forall p h, point_on e B p -> ask (N := N) c (AskPoint p h) = ask (N := RNum) c' (AskPoint (im_point B2R p) h)) /\
    (forall s irr buf, poly_on e B s -> collect (N := N) c (CollPoly s) irr buf = collect (N := RNum) c' (CollPoly (im_poly B2R s)) irr buf).
Proof. intros prec emax Hp Hm umax alm e B HF HA H1 N D ED BS BU. exact (same_answers Hp Hm umax alm e B HF HA H1 BU). Qed.
Print Assumptions C74_same_answers.
(** a polygon is accepted exactly if it is feasible in the plane *)
Theorem C74_accepted_iff_feasible :
  forall (prec emax : Z) (Hp : Prec_gt_0 prec) (Hm : Prec_lt_emax prec emax) (umax : nat) (alm : binary_float prec emax -> binary_float prec emax -> bool) (e B : Z),
  fits (prec := prec) (emax := emax) e B -> tells_apart e B alm -> (1 < prec)%Z ->
  let N := FloatNum prec emax Hp Hm umax alm in
  forall (D : Type) (ED : EqD D) (BS : BSearch), bsearch_uniform BS ->
  forall bb (statics : list (hazard _ D)) depth n_cells ops (c : cde _ D) sn,
  box_on (S depth) e B bb -> Forall (hazard_on e B) statics -> Forall (op_on e B) ops ->
  engine (N := N) bb statics depth n_cells ops = Ok (c, sn) ->
  bsearch_ok BS -> valid (N := N) statics ops ->
  let fs := map (im_fact B2R) (facts statics ops) in
  framed (im_rect B2R bb) fs -> good_facts fs -> all_active fs ->
  forall s irr, poly_on e B s -> good_shape (im_poly B2R s) ->
  (box_inside (im_rect B2R bb) (im_poly B2R s) \/ exists f0, In f0 fs /\ ent_position (f_ent f0) = Exterior /\ ~ In (f_ent f0) irr) ->
  (ask (N := N) c (AskPoly s irr) = Ok TFalse <-> feasible (im_poly B2R s) irr fs).
Proof. intros prec emax Hp Hm umax alm e B HF HA H1 N D ED BS BU. exact (float_iff_feasible Hp Hm umax alm e B HF HA H1 BU). Qed.
Print Assumptions C74_accepted_iff_feasible.
(** an edge that crosses or touches an edge of a hazard is reported *)
Theorem C74_no_missed_crossing :
  forall (prec emax : Z) (Hp : Prec_gt_0 prec) (Hm : Prec_lt_emax prec emax) (umax : nat) (alm : binary_float prec emax -> binary_float prec emax -> bool) (e B : Z),
  fits (prec := prec) (emax := emax) e B -> tells_apart e B alm -> (1 < prec)%Z ->
  let N := FloatNum prec emax Hp Hm umax alm in
  forall (D : Type) (ED : EqD D) (BS : BSearch), bsearch_uniform BS ->
  forall bb (statics : list (hazard _ D)) depth n_cells ops (c : cde _ D) sn,
  box_on (S depth) e B bb -> Forall (hazard_on e B) statics -> Forall (op_on e B) ops ->
  engine (N := N) bb statics depth n_cells ops = Ok (c, sn) ->
  bsearch_ok BS -> valid (N := N) statics ops ->
  let fs := map (im_fact B2R) (facts statics ops) in
  framed (im_rect B2R bb) fs -> sound_facts fs ->
  forall f g h x irr, edge_on e B g -> In f fs -> ~ In (f_ent f) irr -> In h (ring (p_pts (f_poly f))) ->
  edet (im_edge B2R g) h <> 0 -> on_seg (im_edge B2R g) x -> on_seg h x -> in_rect (im_rect B2R bb) x ->
  ask (N := N) c (AskQuery (edge_query (N := N) g) irr) = Ok TTrue.
Proof. intros prec emax Hp Hm umax alm e B HF HA H1 N D ED BS BU. exact (float_no_missed_crossing Hp Hm umax alm e B HF HA H1 BU). Qed.
Print Assumptions C74_no_missed_crossing.
(** the square around the bin is computed without rounding *)
Theorem C74_bin_square :
  forall (prec emax : Z) (Hp : Prec_gt_0 prec) (Hm : Prec_lt_emax prec emax) (umax : nat) (alm : binary_float prec emax -> binary_float prec emax -> bool) (e K : Z) r,
  (3 - emax - prec <= e)%Z -> (prec + (e + 1) < emax)%Z -> (0 <= K)%Z -> (6 * K <= 2 ^ prec)%Z -> (1 < prec)%Z -> rect_on (e + 1) K r ->
  let q := inflate_to_square (N := FloatNum prec emax Hp Hm umax alm) r in
  im_rect B2R q = inflate_to_square (N := RNum) (im_rect B2R r) /\ rect_on e (6 * K) q.
Proof. exact (@inflate_grid). Qed.
Print Assumptions C74_bin_square.
(** tests made of comparisons only are exact for all finite numbers, on a grid or not *)
Theorem C74_box_tests :
  forall (prec emax : Z) (Hp : Prec_gt_0 prec) (Hm : Prec_lt_emax prec emax) (umax : nat) (alm : binary_float prec emax -> binary_float prec emax -> bool),
  let N := FloatNum prec emax Hp Hm umax alm in
  forall r s p, rfin r -> rfin s -> pfin p ->
  relation_to (N := RNum) (im_rect B2R r) (im_rect B2R s) = relation_to (N := N) r s /\
  rr_collides (N := RNum) (im_rect B2R r) (im_rect B2R s) = rr_collides (N := N) r s /\
  rp_collides (N := RNum) (im_rect B2R r) (im_point B2R p) = rp_collides (N := N) r p.
Proof. exact (@box_tests). Qed.
Print Assumptions C74_box_tests.

(** the hypotheses are met in any format at least as large as single precision: a bin
    [0,80]^2 with an item [40,56]^2, a square that is accepted and one that is not *)
Example C74_hypotheses : forall (prec emax : Z) (Hp : Prec_gt_0 prec) (Hm : Prec_lt_emax prec emax) (umax : nat), (24 <= prec)%Z -> (prec + 9 < emax)%Z ->
  let N := FloatNum prec emax Hp Hm umax Beqb in
  let fs := map (im_fact B2R) (facts (ED := NatEqD) (fb_st Hp Hm umax) (fb_ops Hp Hm umax)) in
  fits (prec := prec) (emax := emax) 0 341 /\ tells_apart (prec := prec) (emax := emax) 0 341 Beqb /\ bsearch_uniform LinSearch /\
  box_on 3 0 341 (fb_bb Hp Hm) /\ Forall (hazard_on 0 341) (fb_st Hp Hm umax) /\ Forall (op_on 0 341) (fb_ops Hp Hm umax) /\
  valid (N := N) (ED := NatEqD) (fb_st Hp Hm umax) (fb_ops Hp Hm umax) /\ framed (im_rect B2R (fb_bb Hp Hm)) fs /\ good_facts fs /\ all_active fs /\
  poly_on 0 341 (fbox Hp Hm umax 8 8 32 32) /\ good_shape (im_poly B2R (fbox Hp Hm umax 8 8 32 32)).
Proof. exact fb_hyps. Qed.
Example C74_single : exists c sn, let N := FloatNum 24 128 prec32 emax32 0 Beqb in
  engine (N := N) (ED := NatEqD) (BS := LinSearch) (fb_bb prec32 emax32) (fb_st prec32 emax32 0) 2 0 (fb_ops prec32 emax32 0) = Ok (c, sn) /\
  ask (N := N) (ED := NatEqD) c (AskPoly (fbox prec32 emax32 0 8 8 32 32) []) = Ok TFalse /\
  ask (N := N) (ED := NatEqD) c (AskPoly (fbox prec32 emax32 0 30 30 44 44) []) <> Ok TFalse.
Proof. exact (fb_verdicts prec32 emax32 0 (Z.le_refl 24) eq_refl). Qed.

(** *** C75: in single precision, off the grid, an overlapping polygon can be accepted.
    All the other hypotheses of C74_accepted_iff_feasible hold; a vertex of the accepted
    polygon lies strictly inside the placed item. *)
Theorem C75_overlap_accepted_refuted : forall (umax : nat) (alm : f32 -> f32 -> bool),
  (forall x y, is_finite x = true -> is_finite y = true -> alm x y = true -> Rabs (B2R x - B2R y) <= 1) ->
  let N := FloatNum 24 128 prec32 emax32 umax alm in
  exists (bb : rect f32) (ops : list (op f32 nat)) (s : poly f32) c sn f p,
    valid (N := N) (ED := NatEqD) [] ops /\ engine (N := N) (ED := NatEqD) (BS := LinSearch) bb [] 0 0 ops = Ok (c, sn) /\
    framed (im_rect B2R bb) (map (im_fact B2R) (facts (ED := NatEqD) [] ops)) /\
    good_facts (map (im_fact B2R) (facts (ED := NatEqD) [] ops)) /\ all_active (map (im_fact B2R) (facts (ED := NatEqD) [] ops)) /\
    good_shape (im_poly B2R s) /\ box_inside (im_rect B2R bb) (im_poly B2R s) /\
    ask (N := N) (ED := NatEqD) c (AskPoly s []) = Ok TFalse /\
    In f (map (im_fact B2R) (facts (ED := NatEqD) [] ops)) /\ region (p_pts (im_poly B2R s)) p /\ strictly_blocked f p.
Proof. exact overlap_accepted. Qed.
Print Assumptions C75_overlap_accepted_refuted.
