(** An engine with one item in the gap of the clasp of CombProofs.v: the clasp fits, but
    its generated surrogate is reported. *)
From Coq Require Import List Bool Arith Lia.
From Verif Require Import Base Num GeoModel HazardModel QTModel BaseProofs QTProofs TransfModel HpgModel CdeModel PolyModel
  CdeProofs CdeSpec CdeHistProofs CdeThmProofs Instances GeoSpec ShapeSpec ParityProofs GeoPrimProofs GeoRectProofs PipProofs
  TouchProofs RegionProofs PlaceSpec CdeGeoProofs RigidProofs GeoThmProofs CdeGeoThmProofs PlaceExampleProofs
  XformProofs NormProofs HullProofs PoleProofs ConstructProofs PierProofs PierGenProofs CombProofs CombSurrProofs.
From Coq Require Import Reals Lra.
From Verif Require Import GeoModel HazardModel QTModel TransfModel CdeModel CdeSpec GeoSpec PlaceSpec.
Import ListNotations.
Local Open Scope R_scope.
#[local] Existing Instance RNum.
#[local] Existing Instance RTrig.
#[local] Existing Instance NatEqD.
#[local] Existing Instance LinSearch.

Definition gap_bb : rrect := Rc (-20000) (-20000) 20000 20000.
Definition gap_bin : poly R := rbox (-20000) (-20000) 20000 20000 5.
Definition gap_st : list (hazard R nat) := [Hz BinExterior (Arc 0 gap_bin) true].
Definition gap_item (cx cy : R) : poly R := rbox (98 - cx) (-1 - cy) (100 - cx) (1 - cy) 1.
Definition gap_ops (cx cy : R) : list (op R nat) := [OReg (Hz (PlacedItem 1 0%nat) (Arc 1 (gap_item cx cy)) true)].

Lemma comb_gap_wide : forall p, 98 <= px p <= 100 -> -1 <= py p <= 1 -> outside comb p.
Proof.
  intros [x y] X Y. cbn [px py] in *. split.
  - intros H. pose proof (comb_border _ H) as K. cbn [px py] in K. lra.
  - unfold even_odd, comb, parity, ring. cbn [path_edges fold_right]. rewrite !crosses_sign. unfold cp. cbn [px py es ee]. rcmp. reflexivity.
Qed.
Lemma comb_in_box : forall p, region comb p -> 0 <= px p <= 19800 /\ -90 <= py p <= 90.
Proof.
  intros p H. pose proof (proj1 comb_box) as B.
  destruct (on_border_dec comb p) as [O|O]; [apply (border_in_box _ _ _ B O)|].
  destruct H as [H|H]; [contradiction|]. destruct (even_odd_box _ _ _ B O H) as (P & Q). cbn in P, Q. lra.
Qed.
Lemma region_cases : forall l p, region l p \/ outside l p.
Proof.
  intros l p. unfold region, outside. destruct (on_border_dec l p) as [O|O]; [auto|]. destruct (even_odd l p); auto.
Qed.
Section Gap.
  Variables cx cy : R.
  Hypothesis Bx : 0 < cx < 19800.
  Hypothesis By : -90 < cy < 90.
  Local Notation ops := (gap_ops cx cy).
  Lemma gap_valid : valid gap_st ops.
  Proof.
    assert (G : forall a b c d k, a < c -> b < d -> good_poly (rbox a b c d k)) by (intros; apply good_wf, rbox_good; assumption).
    split.
    - split; [constructor; [apply G; lra|constructor]|]. simpl. constructor; [intros []|constructor].
    - exists (fun e => match e with BinExterior => (gap_bin, true) | _ => (gap_item cx cy, true) end).
      simpl. split; [|exact Logic.I]. split; [apply G; lra|]. split; [reflexivity|]. split; [intros [K|[]]; discriminate|intros []].
  Qed.
  Lemma gap_engine : forall lvl, exists c sn, engine gap_bb gap_st lvl 0 ops = Ok (c, sn).
  Proof.
    intros lvl. destruct gap_valid as (S & shp & O). eapply engine_total; [exact LinSearch_ok|exact S|exact O].
  Qed.
  Lemma gap_good : good_facts (facts gap_st ops).
  Proof. intros f [<-|[<-|[]]]; apply rbox_good; lra. Qed.
  Lemma gap_active : all_active (facts gap_st ops).
  Proof. intros f [<-|[<-|[]]]; reflexivity. Qed.
  Lemma gap_framed : framed gap_bb (facts gap_st ops).
  Proof.
    split; [split; simpl; lra|]. intros f [<-|[<-|[]]] H; [|discriminate]. unfold f_poly, inflate_to_square, gap_bb. simpl. unr.
    rdestr (20000 - -20000) (20000 - -20000); [lra|]. f_equal; lra.
  Qed.
  Lemma gap_feasible : forall b, p_pts b = map (tr_point (transl_m (- cx) (- cy))) comb -> feasible b [] (facts gap_st ops).
  Proof.
    intros b Pb f [<-|[<-|[]]] _ _ p Rp Bl; rewrite Pb in Rp.
    all: assert (Rg : rigid (transl_m (- cx) (- cy))) by apply affine_rigid, transl_affine.
    all: assert (Ep : p = tr_point (transl_m (- cx) (- cy)) (Pt (px p + cx) (py p + cy)))
      by (symmetry; etransitivity; [apply tr_transl|]; apply pt_ext; unfold shifted; cbn; lra).
    all: assert (Rq : region comb (Pt (px p + cx) (py p + cy))).
    1, 3: rewrite Ep in Rp; destruct (rigid_sets _ comb (Pt (px p + cx) (py p + cy)) Rg) as (B1 & B2 & B3);
      destruct (region_cases comb (Pt (px p + cx) (py p + cy))) as [K|K]; [exact K|apply B3 in K as (K1 & K2); destruct Rp; [contradiction|congruence]].
    all: pose proof (comb_in_box _ Rq) as (X & Y); cbn [px py] in X, Y.
    - unfold blocked in Bl. cbn [f_ent ent_position fst snd f_poly fact_of h_ent h_shape a_obj gap_st map] in Bl.
      destruct (rbox_inside (-20000) (-20000) 20000 20000 5 p) as (N & Eo); [lra|lra|]. destruct Bl as [Bl|Bl]; [contradiction|].
      unfold f_poly in Bl. simpl in Bl, Eo. rewrite Eo in Bl. discriminate.
    - unfold blocked in Bl. cbn in Bl. change (region (p_pts (gap_item cx cy)) p) in Bl. apply rbox_region in Bl; [|lra|lra].
      destruct Bl as (X' & Y'). simpl in X', Y'. destruct (comb_gap_wide (Pt (px p + cx) (py p + cy))) as (O1 & O2); [cbn; lra|cbn; lra|].
      destruct Rq; [contradiction|congruence].
  Qed.
End Gap.
Theorem verdict_changes : exists l s0, poly_new l = Ok s0 /\ no_spikes l /\
  let s := fst (center_around_centroid s0) in
  exists s' b bb statics ops, generate_surrogate release_cfg (SC (9 / 10) 1 1 1) s = Ok s' /\ good_shape s' /\
    let t := compose (DT 0 0 0) in tr_poly_from t s' s' = Ok b /\
    valid statics ops /\ framed bb (facts statics ops) /\ good_facts (facts statics ops) /\ all_active (facts statics ops) /\
    forall depth, exists c sn, engine (D := nat) (ED := NatEqD) (BS := LinSearch) bb statics depth 0 ops = Ok (c, sn) /\
      ask c (AskPoly b []) = Ok TFalse /\ ask c (AskBoth s' t s' []) = Ok TTrue.
Proof.
  destruct clasp_surrogate as (s0 & cx & cy & E0 & Bx & By & _ & _ & G). exists comb, s0. split; [exact E0|]. split; [exact comb_spikes|]. cbn zeta.
  destruct (G (9 / 10) 1%nat 1%nat) as (s' & u & Eg & Eu & Nf & Lp & Pi & Ps & Gs). exists s'.
  set (t := compose (DT 0 0 0)).
  assert (It : forall p, tr_point t p = p).
  { intros [x y]. unfold t, compose, rot_transl_m, tr_point. cbn [dt_rot dt_tx dt_ty m00 m01 m02 m10 m11 m12 m20 m21 m22 px py fcos fsin RTrig]. unr.
    rewrite cos_0, sin_0. apply pt_ext; cbn [px py]; lra. }
  assert (Eb : exists b, tr_poly_from t s' s' = Ok b).
  { unfold tr_poly_from. rewrite Eu. cbn [expect rbind]. eauto. }
  destruct Eb as (b & Eb). exists b, gap_bb, gap_st, (gap_ops cx cy).
  split; [exact Eg|]. split; [exact Gs|]. split; [exact Eb|].
  split; [apply gap_valid; assumption|]. split; [apply gap_framed|]. split; [apply gap_good; assumption|]. split; [apply gap_active|].
  destruct (good_tr_poly_from t s' s' b (rigid_compose _) Gs eq_refl Eb) as (Gb & Pb).
  assert (Pb' : p_pts b = map (tr_point (transl_m (- cx) (- cy))) comb).
  { rewrite Pb, Ps. rewrite (map_ext _ (fun p => p) It), map_id. reflexivity. }
  intros lvl. destruct (gap_engine cx cy lvl) as (c & sn & E). exists c, sn. split; [exact E|].
  pose proof (gap_valid cx cy) as V. pose proof (gap_framed cx cy) as Fr. pose proof (gap_good cx cy) as Gf. pose proof (gap_active cx cy) as Ac.
  split.
  - apply (accepted_iff_feasible LinSearch_ok gap_bb gap_st lvl 0 (gap_ops cx cy) c sn V E Fr Gf Ac b [] Gb).
    + right. eexists. split; [left; reflexivity|]. split; [reflexivity|]. intros [].
    + apply gap_feasible; assumption.
  - assert (Q : ask c (AskQuery (edge_query (tr_edge t (bad_pier cx cy))) []) = Ok TTrue).
    { apply (no_missed_crossing LinSearch_ok gap_bb gap_st lvl 0 (gap_ops cx cy) c sn V E Fr (good_sound_facts _ _ Gf)
        (fact_of (Hz (PlacedItem 1 0%nat) (Arc 1 (gap_item cx cy)) true)) _ (Ed (Pt (98 - cx) (-1 - cy)) (Pt (100 - cx) (-1 - cy))) (Pt (99 - cx) (-1 - cy))).
      - right; left; reflexivity.
      - intros [].
      - left; reflexivity.
      - unfold bad_pier, e_scale, tr_edge, edet, f2. cbn [es ee px py]. rewrite !It. cbn [px py fadd fsub fmul fdiv f1 RNum RNumT]. lra.
      - exists (1 / 2 - 1000 / 60 / 999). split; [lra|]. unfold bad_pier, e_scale, tr_edge, at_t, f2. cbn [es ee]. rewrite !It. cbn [px py fadd fsub fmul fdiv f1 RNum RNumT].
        apply pt_ext; cbn [px py]; field.
      - exists (1 / 2). split; [lra|]. unfold at_t. cbn [es ee px py]. apply pt_ext; cbn [px py]; lra.
      - split; cbn [px py gap_bb x_min x_max y_min y_max]; lra. }
    rewrite (asked LinSearch_ok gap_bb gap_st lvl 0 (gap_ops cx cy) c sn V E) in Q by exact Logic.I.
    rewrite (asked LinSearch_ok gap_bb gap_st lvl 0 (gap_ops cx cy) c sn V E).
    + cbn [answer] in *. rewrite Eu, Eb. unfold osurr. rewrite Pi. cbn [repeat existsb]. rewrite orb_false_r.
      destruct (existsb (fun o => rel [] o && ohits lvl gap_bb (edge_query (tr_edge t (bad_pier cx cy))) o) (facts gap_st (gap_ops cx cy))); [|discriminate].
      rewrite orb_true_r. reflexivity.
    + split; [exists u; split; [exact Eu|]; assert (Z : (s_nff u <= length (s_poles u))%nat) by (rewrite Nf, Lp; cbn; lia); exact Z|]. exists b. split; [exact Eb|]. apply good_wf; exact Gb.
Qed.
(** and when it cannot: C17 for generated surrogates *)
Theorem verdict_stays : forall (D : Type) (ED : EqD D) (BS : BSearch), bsearch_ok BS ->
  forall (bb : rrect) (statics : list (hazard R D)) (depth n_cells : nat) (ops : list (op R D)) (c : cde R D) sn,
  valid statics ops -> engine bb statics depth n_cells ops = Ok (c, sn) ->
  framed bb (facts statics ops) -> good_facts (facts statics ops) -> all_active (facts statics ops) ->
  forall (cfg : pier_cfg R) (sc : surr_cfg R) (l : list rpoint) (s0 s s' : poly R) (pt t : transf R) buf b irr,
  poly_new l = Ok s0 -> no_spikes (p_pts s0) -> rigid pt -> s = tr_poly pt s0 -> 0 <= pc_trim cfg <= 1 ->
  convex_shape (p_pts s) \/ sc_nff_piers sc = 0%nat \/ (forall k i, (k < pc_angles cfg)%nat -> (i < pc_rays cfg)%nat ->
     ray_general (p_pts s) (pier_ray (pc_pi cfg) (pc_angles cfg) (pc_rays cfg) s k i)) ->
  generate_surrogate cfg sc s = Ok s' -> rigid t ->
  length (p_pts buf) = length (p_pts s') -> tr_poly_from t buf s' = Ok b ->
  ask c (AskBoth s' t buf irr) = ask c (AskPoly b irr).
Proof.
  intros D ED BS Hb bb statics depth n ops c sn V E Fr Gf Ac cfg sc l s0 s s' pt t buf b irr En Ns Rp -> Tr Cs Eg Rt Lb Eb.
  destruct (new_made _ _ En) as (M0 & _). pose proof (made_tr pt s0 Rp M0) as M.
  destruct (surrogate_general cfg sc _ s' M Tr Cs Eg) as (u & Eu & Iu).
  pose proof (good_tr_poly pt s0 Rp (new_good_shape _ _ En Ns)) as G.
  assert (G' : good_shape s').
  { unfold generate_surrogate in Eg. destruct (surrogate_new _ _ _); [|discriminate]. cbn [rbind] in Eg. injection Eg as <-.
    destruct G as [G1 G2 G3 G4 G5]. split; assumption. }
  exact (surrogate_never_changes Hb bb statics depth n ops c sn V E Fr Gf Ac s' t buf b u irr G' Rt Eu Iu Lb Eb).
Qed.
