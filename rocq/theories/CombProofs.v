(** A polygon whose piers lie outside: a long thin clasp with a vertex on the second ray.
    The grid of points that guides the selection misses the polygon, so that the first
    piece is taken. *)
From Coq Require Import Reals List Bool Arith Lra Lia Psatz Permutation Sorted.
From Verif Require Import Base Num GeoModel HazardModel QTModel TransfModel PolyModel GeoSpec ShapeSpec PlaceSpec HpgSpec
  BaseProofs QTProofs ParityProofs GeoPrimProofs GeoRectProofs PipProofs TouchProofs RegionProofs RigidProofs
  XformProofs NormProofs HullProofs PoleProofs ConstructProofs CrossProofs PierProofs PierGenProofs.
Import ListNotations.
Local Open Scope R_scope.
#[local] Existing Instance RNum.
#[local] Existing Instance RTrig.
#[local] Opaque next_pole MAX_POI_TREE_DEPTH.

(** the constants of an optimised build *)
Definition release_cfg : pier_cfg R := PC 200 90 100 (999 / 1000) (1 / 10) PI.

Definition comb : list rpoint :=
  [Pt 0 (-30); Pt 99 (-90); Pt 19800 (-90); Pt 19800 90; Pt 50 90; Pt 50 30; Pt 19700 30; Pt 19700 (-30)].

(** *** vertical rays *)
Lemma vertical_none : forall a b x k m, px a < x /\ px b < x \/ x < px a /\ x < px b ->
  e_collides_at (Ed a b) (Ed (Pt x k) (Pt x m)) = None.
Proof.
  intros [ax ay] [bx by'] x k m H. destruct (e_collides_at _ _) as [p|] eqn:E; [|reflexivity]. exfalso.
  apply ei_sound in E as ((s & Hs & E1) & (t & Ht & E2) & _). subst p. cbn [px] in H. apply (f_equal (@px R)) in E2. unfold at_t in E2. cbn [es ee px py] in E2.
  replace (x + t * (x - x)) with x in E2 by ring. destruct H; destruct (Rle_dec s (1 / 2)); nra.
Qed.
Lemma vertical_some : forall a b x k m y, px a <> px b -> k < m -> k <= y <= m -> on_seg (Ed a b) (Pt x y) ->
  e_collides_at (Ed a b) (Ed (Pt x k) (Pt x m)) = Some (Pt x y).
Proof.
  intros [ax ay] [bx by'] x k m y N M Y O. apply ei_complete; [|exact O|].
  - unfold edet. cbn [es ee px py] in *. replace (x - x) with 0 by ring. intros E. assert ((bx - ax) * (m - k) = 0) as E' by lra. apply Rmult_integral in E'. lra.
  - apply seg_vert. lra.
Qed.

Section Comb.
  Variables (cx cy : R).
  Hypothesis Hx : 0 < cx < 19800.
  Hypothesis Hy : -90 < cy < 90.
  Variable s : poly R.
  Hypothesis Spts : p_pts s = map (shifted (- cx) (- cy)) comb.
  Hypothesis Sbox : p_bbox s = Rc (- cx) (-90 - cy) (19800 - cx) (90 - cy).
  Hypothesis Scen : p_centroid s = Pt 0 0.
  Hypothesis Ssound : sound_poly s.

  Lemma comb_w : Rmax (x_max (p_bbox s) - x_min (p_bbox s)) (y_max (p_bbox s) - y_min (p_bbox s)) = 19800.
  Proof. rewrite Sbox. cbn [x_min x_max y_min y_max]. rewrite Rmax_left; lra. Qed.
  Lemma outside_box : forall p, ~ in_rect (p_bbox s) p -> pp_collides s p = Ok false.
  Proof.
    intros p N. unfold pp_collides. destruct (rp_collides (p_bbox s) p) eqn:E; [|reflexivity]. apply rp_collides_iff in E. contradiction.
  Qed.
  (** *** the grid *)
  Lemma comb_grid : forall poles, unrepresented_grid (inflate_to_square (p_bbox s)) s poles 100 = Ok [].
  Proof.
    intros poles. unfold unrepresented_grid.
    rewrite (rmapM_ok _ (fun _ => None)).
    - cbn [rbind]. rewrite omap_id_map.
      assert (G : forall l : list rpoint, omap (fun _ => @None rpoint) l = []) by (induction l as [|x l IH]; cbn; auto).
      rewrite G. reflexivity.
    - intros p Hp. apply in_flat_map in Hp as (x & _ & Hp). apply in_map_iff in Hp as (y & <- & Iy).
      change 100%nat with (99 + 1)%nat in Iy. apply in_linspace in Iy as (j & Hj & Ey). specialize (Ey ltac:(lia)).
      assert (Y : y = -9900 - cy + 200 * INR j).
      { rewrite Ey. unfold inflate_to_square, f2. rewrite Sbox. cbn [flt fsub fadd fdiv f0 f1 RNum RNumT x_min x_max y_min y_max].
        replace (INR 99) with 99 by (rewrite INR_IZR_INZ; reflexivity). rcmp. cbn [y_min y_max]. field. }
      rewrite outside_box; [reflexivity|]. rewrite Sbox. unfold in_rect. cbn [x_min x_max y_min y_max py]. intros (_ & H).
      assert (E49 : INR 49 = 49) by (rewrite INR_IZR_INZ; reflexivity). assert (E50 : INR 50 = 50) by (rewrite INR_IZR_INZ; reflexivity).
      destruct (le_lt_dec j 49) as [L|L]; apply le_INR in L; [rewrite E49 in L|rewrite E50 in L]; lra.
  Qed.
  (** *** the rays *)
  Lemma ray_vertical : forall i, pier_ray PI 90 200 s 0 i = Ed (Pt (99 * INR i - cx) (- 39600)) (Pt (99 * INR i - cx) 39600).
  Proof.
    intros i. unfold pier_ray. cbn zeta. rewrite comb_w, Scen, Sbox. cbn [x_min x_max px py].
    replace (INR 200) with 200 by (rewrite INR_IZR_INZ; reflexivity).
    replace (PI * INR 0 / INR 90) with 0 by (cbn [INR]; lra). unfold turned. rewrite cos_0, sin_0. cbn [px py].
    f_equal; apply pt_ext; cbn [px py]; lra.
  Qed.
  Lemma ends_outside : forall k i, (i < 200)%nat ->
    ~ in_rect (p_bbox s) (es (pier_ray PI 90 200 s k i)) /\ ~ in_rect (p_bbox s) (ee (pier_ray PI 90 200 s k i)).
  Proof.
    assert (G : forall a x y, 39600 * 39600 <= y * y -> ~ in_rect (p_bbox s) (turned a (Pt x y))).
    { intros a x y Q H. rewrite Sbox in H. unfold in_rect, turned in H. cbn [x_min x_max y_min y_max px py] in H. destruct H as (H1 & H2).
      set (u := cos a * x - sin a * y) in *. set (v := sin a * x + cos a * y) in *.
      assert (E : u * u + v * v = x * x + y * y).
      { pose proof (sin2_cos2 a) as E. unfold Rsqr in E. unfold u, v.
        replace (_ + _) with ((sin a * sin a + cos a * cos a) * (x * x + y * y)) by ring. rewrite E. ring. }
      assert (u * u <= 19800 * 19800) by nra. assert (v * v <= 180 * 180) by nra. nra. }
    intros k i Hi. unfold pier_ray. cbn zeta. rewrite comb_w, Scen. cbn [px py es ee]. split; apply G; lra.
  Qed.
  Lemma comb_clip : forall k i, (i < 200)%nat -> clip (999 / 1000) s (pier_ray PI 90 200 s k i) =
    Ok (clip_pairs (999 / 1000) (sort_by (fun p => pt_dist (es (pier_ray PI 90 200 s k i)) p) (hits (p_pts s) (pier_ray PI 90 200 s k i)))).
  Proof.
    intros k i Hi. destruct (ends_outside k i Hi) as (A & B). destruct Ssound as (Nd & _). rewrite clip_eq by (apply wf_ring; exact Nd).
    rewrite (outside_box _ A), (outside_box _ B). reflexivity.
  Qed.
  Lemma dist_up : forall x y, -39600 <= y -> pt_dist (Pt x (- 39600)) (Pt x y) = y + 39600.
  Proof.
    intros x y H. rewrite pt_dist_ok. unfold edist. cbn [px py]. replace (_ + _) with ((y + 39600) * (y + 39600)) by ring. apply sqrt_square. lra.
  Qed.
  Ltac some y := rewrite (vertical_some _ _ _ _ _ y); [|cbn; lra|lra|lra|].
  Ltac none := rewrite vertical_none by (cbn; lra).
  Lemma first_clip : clip (999 / 1000) s (pier_ray PI 90 200 s 0 0) = Ok [].
  Proof.
    rewrite comb_clip by lia. rewrite ray_vertical. cbn [es INR]. replace (99 * 0 - cx) with (- cx) by lra.
    assert (H : hits (p_pts s) (Ed (Pt (- cx) (- 39600)) (Pt (- cx) 39600)) = [Pt (- cx) (-30 - cy); Pt (- cx) (-30 - cy)]).
    { unfold hits. rewrite Spts. unfold comb, shifted, ring. cbn [map px py path_edges omap].
      some (-30 - cy). 2: { exists 0. split; [lra|]. apply pt_ext; unfold at_t; cbn; lra. }
      none. none. none. none. none. none.
      some (-30 - cy). 2: { exists 1. split; [lra|]. apply pt_ext; unfold at_t; cbn; lra. }
      reflexivity. }
    rewrite H. unfold sort_by. cbn [fold_left insert_by]. rewrite !dist_up by lra. cbn [flt RNum RNumT]. rcmp.
    cbn [clip_pairs]. replace (pt_eq _ _) with true by (symmetry; apply pt_eq_ok; reflexivity). reflexivity.
  Qed.
  Definition bad_pier : redge := e_scale (Ed (Pt (99 - cx) (-30 - cy)) (Pt (99 - cx) (30 - cy))) (999 / 1000).
  Lemma second_clip : clip (999 / 1000) s (pier_ray PI 90 200 s 0 1) = Ok [bad_pier].
  Proof.
    rewrite comb_clip by lia. rewrite ray_vertical. cbn [es INR]. replace (99 * 1 - cx) with (99 - cx) by lra.
    assert (H : hits (p_pts s) (Ed (Pt (99 - cx) (- 39600)) (Pt (99 - cx) 39600)) =
      [Pt (99 - cx) (-90 - cy); Pt (99 - cx) (-90 - cy); Pt (99 - cx) (90 - cy); Pt (99 - cx) (30 - cy); Pt (99 - cx) (-30 - cy)]).
    { unfold hits. rewrite Spts. unfold comb, shifted, ring. cbn [map px py path_edges omap].
      some (-90 - cy). 2: { exists 1. split; [lra|]. apply pt_ext; unfold at_t; cbn; lra. }
      some (-90 - cy). 2: { exists 0. split; [lra|]. apply pt_ext; unfold at_t; cbn; lra. }
      none.
      some (90 - cy). 2: { replace (90 + - cy) with (90 - cy) by ring. apply seg_horiz. lra. }
      none.
      some (30 - cy). 2: { replace (30 + - cy) with (30 - cy) by ring. apply seg_horiz. lra. }
      none.
      some (-30 - cy). 2: { replace (-30 + - cy) with (-30 - cy) by ring. apply seg_horiz. lra. }
      reflexivity. }
    rewrite H. unfold sort_by. cbn [fold_left].
    assert (IC : forall k (x a : rpoint) l, insert_by k x (a :: l) = if Rltb (k x) (k a) then x :: a :: l else a :: insert_by k x l) by reflexivity.
    assert (I0 : forall k (x : rpoint), insert_by k x [] = [x]) by reflexivity.
    repeat (rewrite ?IC, ?I0, ?dist_up by lra; rcmp).
    cbn [clip_pairs]. replace (pt_eq (Pt (99 - cx) (-90 - cy)) (Pt (99 - cx) (-90 - cy))) with true by (symmetry; apply pt_eq_ok; reflexivity).
    replace (pt_eq (Pt (99 - cx) (-30 - cy)) (Pt (99 - cx) (30 - cy))) with false; [reflexivity|].
    symmetry. destruct (pt_eq _ _) eqn:E; [|reflexivity]. apply pt_eq_ok in E. injection E. intros. lra.
  Qed.
  (** *** the selection *)
  Lemma rays_head : forall pi (bb : rrect) r a, exists rest,
    ray_transformations pi bb (S (S r)) (S a) =
      t_rotate (transl_m (x_min bb + r_width bb / INR (S (S r)) * INR 0) 0) (0 + (if Nat.ltb 1 (S a + 1) then (pi - 0) / INR (S a + 1 - 1) else 0) * INR 0) ::
      t_rotate (transl_m (x_min bb + r_width bb / INR (S (S r)) * INR 1) 0) (0 + (if Nat.ltb 1 (S a + 1) then (pi - 0) / INR (S a + 1 - 1) else 0) * INR 0) :: rest.
  Proof. intros. unfold ray_transformations, linspace. cbn [seq map firstn flat_map app Nat.add]. eexists. reflexivity. Qed.
  Lemma rays_list : exists rest, map (fun t => tr_edge t (base_ray s)) (ray_transformations PI (inflate_to_square (p_bbox s)) 200 90) =
    pier_ray PI 90 200 s 0 0 :: pier_ray PI 90 200 s 0 1 :: rest.
  Proof.
    destruct (rays_head PI (inflate_to_square (p_bbox s)) 198 89) as (rest & E). change (S (S 198)) with 200%nat in E. change (S 89) with 90%nat in E.
    rewrite E. cbn [map]. exists (map (fun t => tr_edge t (base_ray s)) rest). destruct (square_sides (p_bbox s)) as (E1 & E2 & E3). rewrite comb_w in E1, E2, E3.
    replace (Nat.ltb 1 (90 + 1)) with true by reflexivity. replace (90 + 1 - 1)%nat with 90%nat by reflexivity.
    assert (N9 : INR 90 <> 0) by (apply not_0_INR; lia). assert (N2 : INR 200 <> 0) by (apply not_0_INR; lia).
    f_equal; [|f_equal]; unfold tr_edge, base_ray, pier_ray; cbn [es ee]; cbn zeta; rewrite !turn_shift, E1, E2, E3, comb_w; cbn [px py];
      (f_equal; (f_equal; [field; assumption|]; f_equal; field; assumption)).
  Qed.
  Lemma comb_losses : forall radius forfeit rays poles n sel bad rest, rays = bad :: rest ->
    select_piers n radius forfeit rays [] poles sel = Ok (sel ++ repeat bad n).
  Proof.
    intros radius forfeit rays poles n. induction n as [|n IH]; intros sel bad rest E; cbn [select_piers repeat].
    - rewrite app_nil_r. reflexivity.
    - cbn [map]. rewrite E at 1. cbn [map].
      assert (L : fmin_index (loss radius bad [] :: map (fun r : redge => loss radius r []) rest) = Some 0%nat).
      { unfold fmin_index, loss. cbn [fold_left]. f_equal.
        assert (G : forall m i, fst (fmin_index_from i (0%nat, f0) (map (fun _ : redge => f0) m)) = 0%nat).
        { induction m as [|x m IHm]; intros i; cbn [map fmin_index_from fst snd]; [reflexivity|].
          cbn [flt f0 RNum RNumT] in *. replace (Rltb 0 0) with false by (symmetry; apply Rltb_nspec; lra). apply IHm. }
        apply G. }
      rewrite L. cbn [expect rbind]. rewrite E at 1. cbn [nth_error expect rbind]. rewrite (IH _ bad rest E). rewrite <- app_assoc. reflexivity.
  Qed.
  Theorem comb_piers : forall n poles, generate_piers release_cfg s n poles = Ok (repeat bad_pier n).
  Proof.
    intros [|n] poles; [reflexivity|]. unfold generate_piers. cbn [pc_rays pc_angles pc_points pc_trim pc_ratio pc_pi release_cfg].
    destruct (square_sides (p_bbox s)) as (E1 & E2 & E3). rewrite comb_w in E1, E2, E3.
    unfold edge_new. change (pt_eq _ _) with (pt_eq (es (base_ray s)) (ee (base_ray s))).
    replace (pt_eq (es (base_ray s)) (ee (base_ray s))) with false.
    2: { symmetry. destruct (pt_eq _ _) eqn:E; [|reflexivity]. apply pt_eq_ok in E. unfold base_ray in E. cbn [es ee] in E. rewrite E3 in E. injection E. intros. lra. }
    cbn [rbind]. change (Ed (Pt (px (p_centroid s)) (fsub (py (p_centroid s)) (fmul f2 (r_height (inflate_to_square (p_bbox s)))))) (Pt (px (p_centroid s)) (fadd (py (p_centroid s)) (fmul f2 (r_height (inflate_to_square (p_bbox s))))))) with (base_ray s).
    destruct rays_list as (rest & Er).
    assert (Tot : exists out, rmapM (clip (999 / 1000) s) rest = Ok out).
    { destruct (rmapM_inv (clip (999 / 1000) s) (fun _ _ => True) rest) as (out & Eo & _); [|eauto].
      intros ray Ir. destruct (in_rays PI s 200 90 ray) as (k & i & _ & Hi & ->); [rewrite Er; right; right; exact Ir|].
      eexists. split; [apply comb_clip; exact Hi|exact I]. }
    destruct Tot as (out & Eo). rewrite Er. cbn [rmapM]. rewrite first_clip, second_clip, Eo. cbn [rbind concat app].
    rewrite comb_grid. cbn [rbind].
    erewrite comb_losses by reflexivity. reflexivity.
  Qed.
End Comb.

(** *** the polygon *)
Lemma comb_nodup : NoDup comb.
Proof. unfold comb. repeat constructor; cbn [In]; intros H; repeat (destruct H as [H|H]; [injection H; intros; lra|]); exact H. Qed.
Lemma comb_area : shoelace comb = 2376030.
Proof. unfold shoelace, total, comb, ring; cbn. lra. Qed.
Lemma comb_box : smallest_box (Rc 0 (-90) 19800 90) comb.
Proof.
  unfold smallest_box, in_rect. cbn [x_min x_max y_min y_max]. split; [|split; [|split; [|split]]].
  - intros p H. unfold comb in H; cbn [In] in H. repeat (destruct H as [<-|H]; [cbn; lra|]). destruct H.
  - exists (Pt 0 (-30)). unfold comb; cbn; tauto.
  - exists (Pt 19800 90). unfold comb; cbn; tauto.
  - exists (Pt 99 (-90)). unfold comb; cbn; tauto.
  - exists (Pt 50 90). unfold comb; cbn; tauto.
Qed.
Lemma comb_border : forall p, on_border comb p -> px p <= 99 /\ py p <= -30 \/ px p = 50 \/ 19700 <= px p \/ py p = -90 \/ py p = -30 \/ py p = 30 \/ py p = 90.
Proof.
  intros p (e & He & (t & Ht & ->)). unfold comb, ring in He. cbn [path_edges In] in He.
  repeat (destruct He as [<-|He]; [unfold at_t; cbn; lra|]). destruct He.
Qed.
Lemma comb_clear : clear_of comb [] (Pt 10000 60) 30.
Proof.
  split; [|split; [|intros k []]].
  - unfold even_odd, comb, parity, ring. cbn [path_edges fold_right]. rewrite !crosses_sign. unfold cp. cbn [px py es ee]. rcmp. reflexivity.
  - intros q O. pose proof (edist_coord (Pt 10000 60) q) as (X & Y). cbn [px py] in X, Y.
    pose proof (comb_border q O) as H. revert X Y; unfold Rabs; repeat destruct Rcase_abs; lra.
Qed.
Lemma comb_resolution : resolution (Rc 0 (-90) 19800 90) MAX_POI_TREE_DEPTH < 30.
Proof.
  Transparent MAX_POI_TREE_DEPTH. unfold resolution, MAX_POI_TREE_DEPTH. cbn [x_min x_max y_min y_max pow]. rewrite Rmax_left by lra.
  assert (sqrt 2 < 2); [|lra]. rewrite <- (sqrt_square 2) at 2 by lra. apply sqrt_lt_1; lra.
Qed.
#[local] Opaque MAX_POI_TREE_DEPTH.
Lemma comb_new : exists s, poly_new comb = Ok s /\ p_pts s = comb /\ made s.
Proof.
  pose proof comb_resolution as Q.
  destruct (new_works comb (Rc 0 (-90) 19800 90) (Pt 10000 60) 30) as (s & E); auto using comb_nodup, comb_box, comb_clear; try (rewrite comb_area; lra); [cbn; lia|].
  exists s. split; [exact E|]. split; [|apply (new_made _ _ E)].
  destruct (poly_new_ok _ _ E) as (_ & [(H & _)|(_ & H)] & _); [exact H|]. rewrite comb_area in H. lra.
Qed.
Lemma comb_spikes : no_spikes comb.
Proof.
  unfold no_spikes, comb, ring. cbn [path_edges In]. intros e f H K.
  repeat (destruct H as [<-|H]; [repeat (destruct K as [<-|K]; [unfold edet, edot; cbn; intros E; try (injection E; intros; lra); intros; lra|]); destruct K|]). destruct H.
Qed.
Lemma shift_box : forall a b r l, smallest_box r l ->
  smallest_box (Rc (x_min r + a) (y_min r + b) (x_max r + a) (y_max r + b)) (map (shifted a b) l).
Proof.
  intros a b r l (I & (p1 & I1 & E1) & (p2 & I2 & E2) & (p3 & I3 & E3) & (p4 & I4 & E4)). unfold smallest_box, in_rect. cbn [x_min x_max y_min y_max].
  split; [|split; [|split; [|split]]].
  - intros p H. apply in_map_iff in H as (q & <- & Iq). specialize (I q Iq). unfold in_rect in I. unfold shifted; cbn [px py]. lra.
  - exists (shifted a b p1). split; [apply in_map; exact I1|]. unfold shifted; cbn [px py]. lra.
  - exists (shifted a b p2). split; [apply in_map; exact I2|]. unfold shifted; cbn [px py]. lra.
  - exists (shifted a b p3). split; [apply in_map; exact I3|]. unfold shifted; cbn [px py]. lra.
  - exists (shifted a b p4). split; [apply in_map; exact I4|]. unfold shifted; cbn [px py]. lra.
Qed.
Lemma box_eq : forall r r' : rrect, x_min r = x_min r' -> y_min r = y_min r' -> x_max r = x_max r' -> y_max r = y_max r' -> r = r'.
Proof. intros [] []; cbn; intros; subst; reflexivity. Qed.
Lemma comb_gap : outside comb (Pt 99 0).
Proof.
  split.
  - intros H. pose proof (comb_border _ H) as K. cbn [px py] in K. lra.
  - unfold even_odd, comb, parity, ring. cbn [path_edges fold_right]. rewrite !crosses_sign. unfold cp. cbn [px py es ee]. rcmp. reflexivity.
Qed.
Lemma bad_middle : forall cx cy, on_seg (bad_pier cx cy) (Pt (99 - cx) (- cy)).
Proof.
  intros cx cy. exists (1 / 2). split; [lra|]. unfold bad_pier, e_scale, at_t, f2.
  cbn [es ee px py fadd fsub fmul fdiv f1 RNum RNumT]. apply pt_ext; cbn [px py]; field.
Qed.
(** the centred clasp *)
Lemma clasp : exists s0 cx cy, poly_new comb = Ok s0 /\ 0 < cx < 19800 /\ -90 < cy < 90 /\
  let s := fst (center_around_centroid s0) in
  made s /\ p_centroid s = Pt 0 0 /\ p_pts s = map (tr_point (transl_m (- cx) (- cy))) comb /\ p_pts s = map (shifted (- cx) (- cy)) comb /\
  p_bbox s = Rc (- cx) (-90 - cy) (19800 - cx) (90 - cy) /\
  forall n poles, generate_piers release_cfg s n poles = Ok (repeat (bad_pier cx cy) n).
Proof.
  destruct comb_new as (s0 & E0 & P0 & M0). exists s0.
  pose proof (centred s0 (md_norm _ M0)) as C0. unfold center_around_centroid in *. cbn [fst] in *.
  set (cx := px (p_centroid s0)) in *. set (cy := py (p_centroid s0)) in *. exists cx, cy. split; [exact E0|].
  assert (A0 : p_area s0 = 2376030) by (rewrite (nm_area _ (md_norm _ M0)), P0; exact comb_area).
  assert (Cb : 0 < cx < 19800 /\ -90 < cy < 90).
  { unfold cx, cy. rewrite centroid_ok, P0, A0. unfold mx, my, total, comb, ring, crs. cbn. lra. }
  destruct Cb as (Hx & Hy). split; [exact Hx|]. split; [exact Hy|].
  set (t := transl_m (fneg cx) (fneg cy)) in *.
  assert (Rg : rigid t) by apply affine_rigid, transl_affine.
  pose proof (made_tr t s0 Rg M0) as M. set (s := tr_poly t s0) in *.
  assert (Pp : p_pts s = map (shifted (- cx) (- cy)) comb).
  { unfold s, tr_poly. cbn [p_pts]. rewrite P0. apply map_ext. intros p. apply tr_transl. }
  assert (Pb : p_bbox s = Rc (- cx) (-90 - cy) (19800 - cx) (90 - cy)).
  { rewrite (box_unique (p_bbox s) (Rc (0 + - cx) (-90 + - cy) (19800 + - cx) (90 + - cy)) (p_pts s)).
    - apply box_eq; cbn [x_min x_max y_min y_max]; lra.
    - apply (nm_box _ (md_norm _ M)).
    - rewrite Pp. apply (shift_box (- cx) (- cy) _ _ comb_box). }
  assert (Pm : p_pts s = map (tr_point t) comb) by (unfold s, tr_poly; cbn [p_pts]; rewrite P0; reflexivity).
  cbn zeta. split; [exact M|]. split; [exact C0|]. split; [exact Pm|]. split; [exact Pp|]. split; [exact Pb|].
  destruct (made_sound s M) as (So & _). intros n poles. apply comb_piers; assumption.
Qed.
Lemma bad_outside : forall cx cy l, l = map (tr_point (transl_m (- cx) (- cy))) comb -> ~ seg_inside l (bad_pier cx cy).
Proof.
  intros cx cy l -> Bad. set (t := transl_m (- cx) (- cy)) in *.
  assert (Rg : rigid t) by apply affine_rigid, transl_affine.
  specialize (Bad (Pt (99 - cx) (- cy)) (bad_middle cx cy)). replace (Pt (99 - cx) (- cy)) with (tr_point t (Pt 99 0)) in Bad.
  2: { etransitivity; [apply tr_transl|]. unfold shifted; cbn. apply pt_ext; cbn [px py]; lra. }
  destruct (rigid_sets t comb (Pt 99 0) Rg) as (B1 & _ & B3).
  destruct (proj2 B3 comb_gap) as (O1 & O2). destruct Bad as [Bad|Bad]; [contradiction|congruence].
Qed.
Theorem piers_outside : exists l s0, poly_new l = Ok s0 /\ no_spikes l /\
  let s := fst (center_around_centroid s0) in made s /\ p_centroid s = Pt 0 0 /\
  forall n poles, exists ps, generate_piers release_cfg s n poles = Ok ps /\ length ps = n /\ forall e, In e ps -> ~ seg_inside (p_pts s) e.
Proof.
  destruct clasp as (s0 & cx & cy & E0 & _ & _ & M & C0 & Pm & _ & _ & G). exists comb, s0. split; [exact E0|]. split; [exact comb_spikes|]. cbn zeta.
  split; [exact M|]. split; [exact C0|]. intros n poles. exists (repeat (bad_pier cx cy) n). split; [apply G|]. split; [apply repeat_length|].
  intros e He. apply repeat_spec in He as ->. apply bad_outside. exact Pm.
Qed.
