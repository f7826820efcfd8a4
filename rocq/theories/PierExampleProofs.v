(** Piers of the square: the hypotheses of the theorems about piers are met. *)
From Coq Require Import Reals List Bool Arith Lra Lia Psatz Permutation Sorted.
From Verif Require Import Base Num GeoModel HazardModel QTModel TransfModel PolyModel GeoSpec ShapeSpec PlaceSpec HpgSpec
  BaseProofs QTProofs ParityProofs GeoPrimProofs GeoRectProofs PipProofs TouchProofs RegionProofs RigidProofs
  XformProofs NormProofs HullProofs PoleProofs ConstructProofs SquareProofs CrossProofs PierProofs PierGenProofs CombProofs.
Import ListNotations.
Local Open Scope R_scope.
#[local] Existing Instance RNum.
#[local] Existing Instance RTrig.
#[local] Opaque next_pole MAX_POI_TREE_DEPTH.

Lemma square_region : forall p, 0 <= px p <= 4 -> 0 <= py p <= 4 -> region square p.
Proof.
  intros [x y] X Y. cbn [px py] in *.
  destruct (Req_dec x 0) as [->|N1]; [left; exists (Ed (Pt 0 4) (Pt 0 0)); split; [cbn; tauto|apply seg_vert; lra]|].
  destruct (Req_dec x 4) as [->|N2]; [left; exists (Ed (Pt 4 0) (Pt 4 4)); split; [cbn; tauto|apply seg_vert; lra]|].
  destruct (Req_dec y 0) as [->|N3]; [left; exists (Ed (Pt 0 0) (Pt 4 0)); split; [cbn; tauto|apply seg_horiz; lra]|].
  destruct (Req_dec y 4) as [->|N4]; [left; exists (Ed (Pt 4 4) (Pt 0 4)); split; [cbn; tauto|apply seg_horiz; lra]|].
  right. unfold even_odd, square, parity, ring. cbn [path_edges fold_right]. rewrite !crosses_sign. unfold cp. cbn [px py es ee]. rcmp. reflexivity.
Qed.
Lemma square_in : forall p, on_border square p -> 0 <= px p <= 4 /\ 0 <= py p <= 4.
Proof.
  intros p (e & He & (t & Ht & ->)). unfold square, ring in He. cbn [path_edges In] in He.
  repeat (destruct He as [<-|He]; [unfold at_t; cbn; lra|]). destruct He.
Qed.
Lemma square_convex : convex_shape square.
Proof.
  intros a b A B p (t & Ht & ->). apply square_in in A, B. unfold at_t; cbn [es ee px py]. apply square_region; cbn [px py]; nra.
Qed.
Definition small_cfg : pier_cfg R := PC 1 1 0 (999 / 1000) (1 / 10) PI.
Lemma square_ray : forall s, made s -> p_pts s = square -> pier_ray PI 1 1 s 0 0 = Ed (Pt 2 (-6)) (Pt 2 10).
Proof.
  intros s M Ep. assert (B : p_bbox s = Rc 0 0 4 4) by (apply (box_unique _ _ square); [rewrite <- Ep; apply (nm_box _ (md_norm _ M))|exact square_box]).
  assert (A : p_area s = 16) by (rewrite (nm_area _ (md_norm _ M)), Ep; exact square_area).
  assert (C : p_centroid s = Pt 2 2).
  { rewrite centroid_ok, Ep, A. unfold mx, my, total, square, ring, crs. cbn. apply pt_ext; cbn [px py]; lra. }
  unfold pier_ray. cbn zeta. rewrite C, B. cbn [x_min x_max y_min y_max px py INR]. rewrite Rmax_left by lra.
  replace (PI * 0 / 1) with 0 by lra. unfold turned. rewrite cos_0, sin_0. cbn [px py]. f_equal; apply pt_ext; cbn [px py]; lra.
Qed.
Lemma square_general : forall s, made s -> p_pts s = square -> ray_general square (pier_ray PI 1 1 s 0 0).
Proof.
  intros s M Ep. rewrite (square_ray s M Ep).
  assert (Out : forall y, y < 0 \/ 4 < y -> ~ region square (Pt 2 y)).
  { intros y H [K|K].
    - apply square_in in K. cbn in K. lra.
    - revert K. unfold even_odd, square, parity, ring. cbn [path_edges fold_right]. rewrite !crosses_sign. unfold cp. cbn [px py es ee].
      destruct H; rcmp; discriminate. }
  split; [apply Out; lra|]. split; [apply Out; lra|].
  intros v Hv (t & Ht & E). apply (f_equal (@px R)) in E. unfold at_t in E. cbn [es ee px py] in E.
  unfold square in Hv. cbn [In] in Hv. repeat (destruct Hv as [<-|Hv]; [cbn in E; lra|]). destruct Hv.
Qed.
Lemma square_piers : exists s ps, poly_new square = Ok s /\ p_pts s = square /\ made s /\
  (forall k i, (k < pc_angles small_cfg)%nat -> (i < pc_rays small_cfg)%nat ->
     ray_general (p_pts s) (pier_ray (pc_pi small_cfg) (pc_angles small_cfg) (pc_rays small_cfg) s k i)) /\
  generate_piers small_cfg s 1 [] = Ok ps /\ ps <> [].
Proof.
  destruct square_made as (s & E & Ep & M & So & _). exists s.
  pose proof (square_general s M Ep) as G.
  assert (W : wf_poly s) by (apply wf_ring; apply So).
  destruct (clip_total (999 / 1000) s (pier_ray PI 1 1 s 0 0)) as (segs & Ec); [exact So|rewrite Ep; exact G|].
  assert (Es : segs = [e_scale (Ed (Pt 2 0) (Pt 2 4)) (999 / 1000)]).
  { rewrite (clip_inv _ _ _ _ W Ec), (square_ray s M Ep), Ep.
    assert (H : hits square (Ed (Pt 2 (-6)) (Pt 2 10)) = [Pt 2 0; Pt 2 4]).
    { unfold hits, square, ring. cbn [path_edges omap].
      rewrite (vertical_some _ _ _ _ _ 0); [|cbn; lra|lra|lra|apply seg_horiz; lra]. rewrite vertical_none by (cbn; lra).
      rewrite (vertical_some _ _ _ _ _ 4); [|cbn; lra|lra|lra|apply seg_horiz; lra]. rewrite vertical_none by (cbn; lra). reflexivity. }
    rewrite H. unfold sort_by. cbn [fold_left insert_by es]. rewrite !pt_dist_ok. unfold edist. cbn [px py flt RNum RNumT].
    replace (Rltb _ _) with false.
    2: { symmetry. apply Rltb_nspec. apply sqrt_le_1_alt. lra. }
    cbn [clip_pairs]. rewrite pt_eq_no; [reflexivity|]. intros Q. injection Q. lra. }
  exists segs. split; [exact E|]. split; [exact Ep|]. split; [exact M|]. split; [|split].
  - cbn [pc_angles pc_rays pc_pi small_cfg]. intros k i Hk Hi. replace k with 0%nat by lia. replace i with 0%nat by lia. rewrite Ep. exact G.
  - unfold generate_piers. cbn [pc_rays pc_angles pc_points pc_trim pc_ratio pc_pi small_cfg].
    unfold edge_new. change (pt_eq _ _) with (pt_eq (es (base_ray s)) (ee (base_ray s))).
    destruct (square_sides (p_bbox s)) as (_ & _ & E3).
    assert (B : p_bbox s = Rc 0 0 4 4) by (apply (box_unique _ _ square); [rewrite <- Ep; apply (nm_box _ (md_norm _ M))|exact square_box]).
    rewrite B in E3 at 2 3 4 5. cbn [x_min x_max y_min y_max] in E3. rewrite Rmax_left in E3 by lra.
    rewrite pt_eq_no. 2: { unfold base_ray; cbn [es ee]. rewrite E3. intros Q. injection Q. lra. }
    cbn [rbind]. change (Ed (Pt (px (p_centroid s)) (fsub (py (p_centroid s)) (fmul f2 (r_height (inflate_to_square (p_bbox s)))))) (Pt (px (p_centroid s)) (fadd (py (p_centroid s)) (fmul f2 (r_height (inflate_to_square (p_bbox s))))))) with (base_ray s).
    assert (Er : map (fun t => tr_edge t (base_ray s)) (ray_transformations PI (inflate_to_square (p_bbox s)) 1 1) = [pier_ray PI 1 1 s 0 0]).
    { assert (L : exists r, map (fun t => tr_edge t (base_ray s)) (ray_transformations PI (inflate_to_square (p_bbox s)) 1 1) = [r]).
      { unfold ray_transformations, linspace. cbn [seq map firstn flat_map app Nat.add]. eexists. reflexivity. }
      destruct L as (r & L). rewrite L. destruct (in_rays PI s 1 1 r) as (k & i & Hk & Hi & ->); [rewrite L; left; reflexivity|].
      replace k with 0%nat by lia. replace i with 0%nat by lia. reflexivity. }
    rewrite Er. cbn [rmapM]. rewrite Ec. cbn [rbind concat app]. rewrite app_nil_r.
    unfold unrepresented_grid, linspace. cbn [seq map flat_map rmapM rbind omap].
    rewrite Es. reflexivity.
  - rewrite Es. discriminate.
Qed.
