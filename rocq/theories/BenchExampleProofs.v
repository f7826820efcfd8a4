(** A square with split edges, a crossing polygon whose edges cannot be split, and samples
    tested in the bin of PlaceExampleProofs. *)
From Verif Require Import Base Num GeoModel HazardModel QTModel TransfModel HpgModel CdeModel CdeSpec Instances PolyModel LayoutModel ProblemModel LbfModel
  ParserModel SimplModel ParseModel BenchModel GeoSpec ShapeSpec PlaceSpec SimplSpec SimpleSpec BenchSpec.
From Coq Require Import Reals List Bool Arith Lra Lia Psatz.
From Verif Require Import BaseProofs QTProofs ParityProofs CrossProofs GeoPrimProofs GeoRectProofs PipProofs RegionProofs RigidProofs NormProofs BoundProofs HullProofs
  PoleProofs ConstructProofs SimplExampleProofs SimpleProofs SimpleThmProofs SimpleExampleProofs SquareProofs PierExampleProofs CdeGeoThmProofs PlaceExampleProofs ParseThmProofs
  SplitProofs BenchProofs.
From Verif Require Import GeoModel HazardModel QTModel TransfModel CdeModel CdeSpec GeoSpec PlaceSpec BenchSpec.
Import ListNotations.
Local Open Scope R_scope.
#[local] Existing Instance RNum.
#[local] Existing Instance RTrig.
#[local] Existing Instance NatEqD.
#[local] Existing Instance LinSearch.

Lemma square_simple : simple square.
Proof. unfold square. simple_poly. Qed.
Lemma ex_split : exists s s', poly_new square = Ok s /\ made s /\ p_pts s = square /\ simple (p_pts s) /\ multiply_edge_count Reqb s 2 = Ok s' /\
  p_pts s' = [Pt 0 0; Pt 2 0; Pt 4 0; Pt 4 2; Pt 4 4; Pt 2 4; Pt 0 4; Pt 0 2].
Proof.
  destruct square_made as (s & E & Ep & M & So & Ne). exists s.
  assert (Sm : simple (p_pts s)) by (rewrite Ep; exact square_simple).
  assert (Eq : forall x, Reqb x x = true) by (intros x; unfold Reqb; destruct Req_EM_T; auto).
  pose proof (multiply_ok Reqb s 2 Eq M Sm ltac:(lia)) as H. rewrite Ep, E in H.
  destruct H as (s' & E' & (L & Pts) & _). exists s'. repeat (split; [assumption|]).
  assert (K : forall k e i, nth_error (ring square) k = Some e -> (i < 2)%nat -> nth_error (p_pts s') (k * 2 + i) = Some (at_t e (INR i / INR 2))) by exact Pts.
  unfold square in L. cbn [length Nat.mul Nat.add] in L.
  pose proof (K 0%nat _ 0%nat eq_refl ltac:(lia)) as K0. pose proof (K 0%nat _ 1%nat eq_refl ltac:(lia)) as K1.
  pose proof (K 1%nat _ 0%nat eq_refl ltac:(lia)) as K2. pose proof (K 1%nat _ 1%nat eq_refl ltac:(lia)) as K3.
  pose proof (K 2%nat _ 0%nat eq_refl ltac:(lia)) as K4. pose proof (K 2%nat _ 1%nat eq_refl ltac:(lia)) as K5.
  pose proof (K 3%nat _ 0%nat eq_refl ltac:(lia)) as K6. pose proof (K 3%nat _ 1%nat eq_refl ltac:(lia)) as K7.
  clear K Pts. destruct (p_pts s') as [|a [|b [|c [|d [|e [|f [|g [|h [|? ?]]]]]]]]]; try discriminate L.
  cbn [Nat.mul Nat.add nth_error] in *. injection K0 as ->. injection K1 as ->. injection K2 as ->. injection K3 as ->. injection K4 as ->. injection K5 as ->.
  injection K6 as ->. injection K7 as ->. unfold at_t. cbn [es ee px py INR]. repeat f_equal; lra.
Qed.
(** two edges that cross in their middles *)
Definition crossed : list rpoint := [Pt 0 0; Pt 4 4; Pt 4 0; Pt 0 4; Pt (-1) 2].
Lemma crossed_area : shoelace crossed = 2.
Proof. unfold shoelace, total, crossed, ring; cbn; lra. Qed.
Lemma crossed_new : exists s, poly_new crossed = Ok s /\ p_pts s = crossed.
Proof.
  assert (D : NoDup crossed) by (unfold crossed; nodup).
  destruct (new_centre crossed (Rc (-1) 0 4 4)) as (s & E); [cbn; lia|exact D|rewrite crossed_area; lra| | |].
  - unfold smallest_box, in_rect. cbn [x_min x_max y_min y_max]. split; [|split; [|split; [|split]]].
    + intros p H. unfold crossed in H; cbn [In] in H. repeat (destruct H as [<-|H]; [cbn; lra|]). destruct H.
    + exists (Pt (-1) 2). unfold crossed; cbn; tauto.
    + exists (Pt 4 4). unfold crossed; cbn; tauto.
    + exists (Pt 0 0). unfold crossed; cbn; tauto.
    + exists (Pt 4 4). unfold crossed; cbn; tauto.
  - cbn [x_min x_max y_min y_max]. unfold crossed. split; [off|odd].
  - exists s. split; [exact E|]. destruct (poly_new_ok _ _ E) as (Nm & [(H & _)|(_ & H)] & _); [exact H|rewrite crossed_area in H; lra].
Qed.
Lemma crossed_split : exists l s, poly_new l = Ok s /\ made s /\ forall eqa, multiply_edge_count eqa s 2 = Panic.
Proof.
  destruct crossed_new as (s & E & Ep). exists crossed, s. split; [exact E|]. destruct (new_made _ _ E) as (M & _). split; [exact M|].
  intros eqa. destruct (made_sound s M) as (So & _). unfold multiply_edge_count. rewrite (edges_ring s So). cbn [rbind]. rewrite Ep.
  destruct (poly_new (flat_map (split_edge 2) (ring crossed))) as [q|] eqn:Q; [|reflexivity]. exfalso.
  assert (ND : NoDup (flat_map (split_edge 2) (ring crossed))).
  { destruct (poly_new_ok _ _ Q) as (Nm & [(H & _)|(H & _)] & _); pose proof (nm_distinct _ Nm) as ND; rewrite H in ND; [exact ND|].
    apply NoDup_rev in ND. rewrite rev_involutive in ND. exact ND. }
  change (NoDup (split 2 crossed)) in ND. apply (proj1 (NoDup_nth_error _)) with (i := 1%nat) (j := 5%nat) in ND.
  - discriminate.
  - rewrite split_length by lia. cbn; lia.
  - unfold split, crossed, ring, split_edge. cbn [path_edges flat_map steps_from app nth_error es ee px py]. f_equal.
    cbn [fofN fdiv fsub fadd RNum RNumT INR]. f_equal; lra.
Qed.

(** *** samples *)
Lemma square_custom : forall cfg, exists s u, poly_new square = Ok s /\ p_pts s = square /\ made s /\ create_custom_surrogate cfg s 1 0 = Ok u.
Proof.
  intros cfg. destruct square_made as (s & E & Ep & M & _). exists s.
  unfold create_custom_surrogate. rewrite Ep, square_indices. cbn [rbind Nat.sub].
  unfold additional_poles. cbn [more_poles rbind tl length sort_poles]. unfold bounding_circle. cbn [rfold rbind generate_piers].
  cbn [rmapM nth_error square expect rbind]. change [Pt 0 0; Pt 4 0; Pt 4 4; Pt 0 4] with square. rewrite E. cbn [rbind].
  eexists. split; [reflexivity|]. split; [first [exact Ep|reflexivity]|]. split; [exact M|reflexivity].
Qed.
Definition shift (d : R) : transf R := transl_m d d.
Lemma shift_rigid : forall d, rigid (shift d).
Proof. intros d. unfold rigid, shift, transl_m. cbn. repeat split; lra. Qed.
Lemma shift_pts : forall d k, map (tr_point (shift d)) square = p_pts (rbox d d (4 + d) (4 + d) k).
Proof. intros d k. unfold square, rbox, shift, transl_m, tr_point. cbn. repeat f_equal; lra. Qed.
Lemma ex_samples : forall lvl cfg, 0 <= pc_trim cfg <= 1 -> exists c sn s u,
  engine ex_bb ex_st lvl 0 ex_ops = Ok (c, sn) /\ poly_new square = Ok s /\ made s /\ no_spikes (p_pts s) /\ pier_safe cfg s 0 /\
  create_custom_surrogate cfg s 1 0 = Ok u /\ Forall rigid [shift (1/2); shift 4] /\
  fast_fails c u s [shift (1/2); shift 4] (stripped s) = Ok [false; true].
Proof.
  intros lvl cfg Tr. destruct (ex_engine lvl) as (c & sn & E). destruct (square_custom cfg) as (s & u & En & Ep & M & Eu).
  exists c, sn, s, u.
  assert (Ns : no_spikes (p_pts s)) by (rewrite Ep; apply simple_spikes, square_simple).
  assert (Sf : pier_safe cfg s 0) by (right; left; reflexivity).
  assert (Rg : Forall rigid [shift (1/2); shift 4]) by (repeat constructor; apply shift_rigid).
  repeat (split; [assumption|]).
  rewrite (fast_fail_exact LinSearch_ok ex_bb ex_st lvl 0 ex_ops c sn ex_valid E ex_framed ex_good ex_active cfg s 1 0 u _ M Ns Tr Sf Eu Rg).
  assert (G : good_shape s) by (apply made_good; assumption).
  assert (K : forall d, good_shape (tr_poly (shift d) s)) by (intros d; apply good_tr_poly; [apply shift_rigid|exact G]).
  assert (P : forall d, p_pts (tr_poly (shift d) s) = p_pts (rbox d d (4 + d) (4 + d) 1)) by (intros d; cbn [tr_poly p_pts]; rewrite Ep; apply shift_pts).
  assert (W : forall d, (ask c (AskPoly (tr_poly (shift d) s) []) = Ok TFalse <-> feasible (tr_poly (shift d) s) [] (facts ex_st ex_ops)) /\
    exists r, poly_collides c (tr_poly (shift d) s) [] = Ok r).
  { intros d. split.
    - apply (accepted_iff_feasible LinSearch_ok ex_bb ex_st lvl 0 ex_ops c sn ex_valid E ex_framed ex_good ex_active); [apply K|].
      right. exists (fact_of (Hz BinExterior (Arc 0 (rbox 0 0 10 10 5)) true)). split; [left; reflexivity|]. split; [reflexivity|intros []].
    - destruct (fast_fail_one LinSearch_ok ex_bb ex_st lvl 0 ex_ops c sn ex_valid E ex_framed ex_good ex_active s u (shift d) (stripped s) G
        (custom_inside _ _ _ _ _ M Tr Sf Eu) (shift_rigid d) (buffer_stripped s)) as (r & _ & _ & _ & H). exists r. exact H. }
  cbn [rmapM].
  destruct (W (1/2)) as (W1 & r1 & E1). destruct (W 4) as (W2 & r2 & E2). rewrite E1, E2. cbn [rbind].
  cbn [ask] in W1, W2. rewrite E1 in W1. rewrite E2 in W2. cbn [rbind] in W1, W2.
  assert (R1 : r1 = false).
  { destruct r1; [|reflexivity]. exfalso. enough (Q : Ok (yn true) = Ok TFalse) by discriminate Q. apply W1.
    intros f [<-|[<-|[]]] _ _ p Rp; rewrite P in Rp; apply rbox_region in Rp as (X & Y); try lra; simpl in X, Y; intros Bl.
    - unfold blocked in Bl. cbn [f_ent ent_position fst snd f_poly fact_of h_ent h_shape a_obj ex_st map] in Bl.
      destruct (rbox_inside 0 0 10 10 5 p) as (N & Eo); [lra|lra|]. destruct Bl as [Bl|Bl]; [contradiction|]. congruence.
    - unfold blocked in Bl. cbn in Bl. apply (rbox_region 5 5 7 7 1) in Bl as (X' & Y'); simpl in *; lra. }
  assert (R2 : r2 = true).
  { destruct r2; [reflexivity|]. exfalso. refine (proj1 W2 eq_refl _ (or_intror (or_introl eq_refl)) eq_refl _ (Pt 6 6) _ _); [intros []| |].
    - rewrite P. right. apply (rbox_inside 4 4 (4 + 4) (4 + 4) 1); simpl; lra.
    - unfold blocked. cbn. right. apply (rbox_inside 5 5 7 7 1); simpl; lra. }
  rewrite R1, R2. reflexivity.
Qed.
(** the same verdicts for a split shape *)
Definition ex_halves : poly R := let s := rbox 1 1 4 5 1 in Poly (split 2 (p_pts s)) (p_bbox s) (p_area s) (p_diam s) (p_poi s) None.
Lemma ex_halves_good : good_shape ex_halves /\ same_outline (p_pts (rbox 1 1 4 5 1)) (p_pts ex_halves) /\
  Forall2 same_hazard (facts ex_st ex_ops) (facts ex_st ex_ops) /\ length (p_pts ex_halves) = 8%nat.
Proof.
  assert (G : good_shape (rbox 1 1 4 5 1)) by (apply rbox_good; lra).
  assert (Sm : simple (p_pts (rbox 1 1 4 5 1))) by (unfold rbox; cbn [p_pts]; simple_poly).
  assert (Sm' : simple (p_pts ex_halves)) by (apply split_simple; [lia|exact Sm]).
  split; [|split; [apply split_outline; lia|]].
  - split; [apply simple_nondegenerate, Sm'|apply simple_spikes, Sm'|apply (gs_proper _ G)| |].
    + apply box_split; [lia|]. apply (gs_box _ G).
    + destruct (gs_poi _ G) as (A & B). split; cbn [ex_halves p_pts p_poi].
      * intros O. apply border_split in O; [|lia]. apply A, O.
      * rewrite even_odd_split by lia. exact B.
  - split; [|reflexivity]. assert (Rf : forall f : fact R nat, same_hazard f f) by (intros f; split; [reflexivity|]; split; [reflexivity|]; split; intros p; reflexivity).
    induction (facts ex_st ex_ops) as [|f fs IH]; constructor; auto.
Qed.
