(** Rectangles as items: their surrogates; rays that miss them. *)
From Coq Require Import Reals List Bool Arith Lra Lia Psatz.
From Verif Require Import Base Num GeoModel HazardModel QTModel TransfModel PolyModel GeoSpec ShapeSpec PlaceSpec HpgSpec
  BaseProofs QTProofs ParityProofs GeoPrimProofs GeoRectProofs PipProofs TouchProofs RegionProofs RigidProofs
  XformProofs NormProofs HullProofs PoleProofs ConstructProofs SquareProofs CrossProofs PierProofs PierGenProofs CombProofs CentreProofs HpgCellProofs RectPolyProofs.
Import ListNotations.
Local Open Scope R_scope.
#[local] Existing Instance RNum.
#[local] Existing Instance RTrig.
Section H.
  Variables (a b c d : R).
  Hypothesis X : a < c.
  Hypothesis Y : b < d.
  Definition rpts : list rpoint := [Pt a b; Pt c b; Pt c d; Pt a d].
  Ltac area := assert (0 < (c - a) * (d - b)) by (apply Rmult_lt_0_compat; lra).
  Lemma rect_hull : convex_hull rpts = rpts.
  Proof.
    area. unfold convex_hull.
    assert (S : sort_by (@px R) rpts = [Pt a b; Pt a d; Pt c b; Pt c d]).
    { unfold sort_by, rpts. cbn [fold_left insert_by px flt RNum RNumT]. rcmp. reflexivity. }
    rewrite S.
    assert (L : half_hull [Pt a b; Pt a d; Pt c b; Pt c d] = [Pt c d; Pt c b; Pt a b]).
    { unfold half_hull. cbn [fold_left]. rgrow. reflexivity. }
    assert (U : half_hull (rev [Pt a b; Pt a d; Pt c b; Pt c d]) = [Pt a b; Pt a d; Pt c d]).
    { unfold half_hull. cbn [rev app fold_left]. rgrow. reflexivity. }
    rewrite L, U. reflexivity.
  Qed.

  Lemma rect_indices : convex_hull_indices rpts = Ok [0; 1; 2; 3]%nat.
  Proof.
    unfold convex_hull_indices. rewrite rect_hull. unfold rpts. cbn [rmapM position].
    repeat match goal with |- context [pt_eq ?p ?p] => replace (pt_eq p p) with true by (symmetry; apply pt_eq_ok; reflexivity) end.
    repeat match goal with |- context [pt_eq ?p ?q] => rewrite (pt_eq_no p q) by (intros E; injection E; intros; lra) end.
    reflexivity.
  Qed.
  #[local] Opaque next_pole MAX_POI_TREE_DEPTH.
  Lemma rpts_new : exists s, poly_new rpts = Ok s /\ p_pts s = rpts.
  Proof.
    destruct (rect_works (Rc a b c d)) as (s & E); [split; assumption|]. exists s. split; [exact E|].
    destruct (rect_pts _ _ E) as (_ & _ & _ & P). apply P. split; assumption.
  Qed.
  (** with a single pole only the piers can fail *)
  Lemma rect_surrogate : forall cfg goal nff n s, p_pts s = rpts ->
    generate_surrogate cfg (SC goal 1 nff n) s =
    (piers <- generate_piers cfg s n (firstn (Nat.min nff 1) [p_poi s]) ;;
     Ok (Poly (p_pts s) (p_bbox s) (p_area s) (p_diam s) (p_poi s) (Some (Sur [0; 1; 2; 3]%nat [p_poi s] (p_poi s) piers (Nat.min nff 1))))).
  Proof.
    intros cfg goal nff n s Ep. unfold generate_surrogate, surrogate_new. cbn [sc_max_poles sc_nff_poles sc_nff_piers sc_goal].
    destruct rpts_new as (h & Eh & _).
    assert (Ei : convex_hull_indices (p_pts s) = Ok [0; 1; 2; 3]%nat) by (rewrite Ep; exact rect_indices).
    assert (K : rmapM (fun i => expect (nth_error (p_pts s) i)) [0; 1; 2; 3]%nat = Ok rpts) by (rewrite Ep; reflexivity).
    rewrite Ei. cbn [rbind]. rewrite K. cbn [rbind]. rewrite Eh. cbn [rbind].
    unfold additional_poles. cbn [Nat.sub more_poles rbind tl length sort_poles]. unfold bounding_circle at 1. cbn [rfold rbind].
    destruct (generate_piers _ _ _ _); reflexivity.
  Qed.
End H.

(** *** rays that miss the shape *)
Definition norm2 (p : rpoint) : R := px p * px p + py p * py p.
Lemma turned_norm : forall a p, norm2 (turned a p) = norm2 p.
Proof.
  intros a [x y]. unfold norm2, turned. cbn [px py]. pose proof (sin2_cos2 a) as E. unfold Rsqr in E.
  replace (_ + _) with ((sin a * sin a + cos a * cos a) * (x * x + y * y)) by ring. rewrite E. ring.
Qed.
Definition ray_x (nr : nat) (s : poly R) (i : nat) : R :=
  let b := p_bbox s in let w := Rmax (x_max b - x_min b) (y_max b - y_min b) in
  px (p_centroid s) + ((x_min b + x_max b) / 2 - w / 2 + w * INR i / INR nr).
Lemma on_ray_norm : forall pi na nr s k i p, on_seg (pier_ray pi na nr s k i) p -> ray_x nr s i * ray_x nr s i <= norm2 p.
Proof.
  intros pi na nr s k i p (t & _ & ->). unfold pier_ray. cbn zeta. fold (ray_x nr s i). set (x := ray_x nr s i). set (w := Rmax _ _). set (a := pi * INR k / INR na).
  set (y := py (p_centroid s)).
  assert (E : at_t (Ed (turned a (Pt x (y - 2 * w))) (turned a (Pt x (y + 2 * w)))) t = turned a (Pt x (y - 2 * w + t * (4 * w)))).
  { unfold at_t, turned. cbn [es ee px py]. apply pt_ext; cbn [px py]; ring. }
  rewrite E, turned_norm. unfold norm2. cbn [px py]. pose proof (Rle_0_sqr (y - 2 * w + t * (4 * w))) as Q. unfold Rsqr in Q. lra.
Qed.
Lemma missed : forall cfg s n poles d, wf_poly s -> (forall p, on_border (p_pts s) p -> norm2 p < d * d) ->
  0 <= d -> (forall i, (i < pc_rays cfg)%nat -> d <= ray_x (pc_rays cfg) s i) -> generate_piers cfg s (S n) poles = Panic.
Proof.
  intros cfg s n poles d W B D Hx. unfold generate_piers. destruct (edge_new _ _) as [base|] eqn:Eb; [|reflexivity]. cbn [rbind].
  assert (Ebase : base = base_ray s) by (unfold edge_new in Eb; destruct (pt_eq _ _) in Eb; [discriminate|injection Eb as <-; reflexivity]). subst base.
  destruct (rmapM _ _) as [clipped|] eqn:Ec; [|reflexivity]. cbn [rbind]. destruct (unrepresented_grid _ _ _ _) as [grid|]; [|reflexivity]. cbn [rbind].
  assert (En : concat clipped = []).
  { destruct (concat clipped) as [|e r] eqn:E; [reflexivity|]. exfalso.
    destruct (rmapM_concat _ _ _ e Ec) as (ray & segs & Hr & Es & He); [rewrite E; left; reflexivity|].
    apply in_rays in Hr as (k & i & _ & Hi & ->). apply (clip_inv _ _ _ _ W) in Es.
    assert (Eh : hits (p_pts s) (pier_ray (pc_pi cfg) (pc_angles cfg) (pc_rays cfg) s k i) = []).
    { destruct (hits _ _) as [|p l] eqn:Eh; [reflexivity|]. exfalso.
      assert (Hp : In p (hits (p_pts s) (pier_ray (pc_pi cfg) (pc_angles cfg) (pc_rays cfg) s k i))) by (rewrite Eh; left; reflexivity).
      unfold hits in Hp. apply in_omap in Hp as (f & Hf & Hp). apply ei_sound in Hp as (O1 & O2 & _).
      specialize (B p (ex_intro _ f (conj Hf O1))). apply on_ray_norm in O2. specialize (Hx i Hi). nra. }
    rewrite Eh in Es. cbn in Es. subst segs. destruct He. }
  rewrite En. reflexivity.
Qed.

(** *** a square around the origin has piers *)
Lemma fmin_from : forall l i best, (fst best < i)%nat -> (fst (fmin_index_from (N := RNum) i best l) < i + length l)%nat.
Proof.
  induction l as [|x l IH]; intros i best H; cbn [fmin_index_from length]; [lia|].
  destruct (flt x (snd best)); (eapply Nat.lt_le_trans; [apply IH; cbn [fst]; lia|lia]).
Qed.
Lemma select_total : forall n radius forfeit rays grid poles sel, rays <> [] -> exists ps, select_piers n radius forfeit rays grid poles sel = Ok ps.
Proof.
  induction n as [|n IH]; intros radius forfeit rays grid poles sel Hr; cbn [select_piers]; [eauto|].
  destruct rays as [|r rays]; [congruence|]. cbn [map fmin_index expect rbind].
  match goal with |- context [fst (fmin_index_from ?i ?b ?l)] => pose proof (fmin_from l i b ltac:(cbn; lia)) as L; set (m := fst (fmin_index_from i b l)) in * end.
  rewrite map_length in L. destruct (nth_error (r :: rays) m) as [x|] eqn:Ex; [|apply nth_error_None in Ex; cbn [length] in Ex; lia].
  cbn [expect rbind]. apply IH. discriminate.
Qed.
Lemma grid_total : forall bb s poles n, wf_poly s -> exists g, unrepresented_grid bb s poles n = Ok g.
Proof.
  intros bb s poles n W. unfold unrepresented_grid.
  match goal with |- context [rmapM ?f ?l] => destruct (rmapM_inv f (fun _ _ => True) l) as (ks & Ek & _) end.
  - intros p _. destruct (pp_collides s p) as [v|] eqn:E; [cbn [rbind]; eauto|]. exfalso. destruct (pp_total s p W) as (v & Ev). congruence.
  - rewrite Ek. cbn [rbind]. eauto.
Qed.

Lemma F2_l : forall {A B} (P : A -> B -> Prop) l m, Forall2 P l m -> forall x, In x l -> exists y, In y m /\ P x y.
Proof. intros A B P l m H. induction H as [|x y l m Hxy H IH]; intros z []; [subst; exists y; split; [left|]; auto|]. destruct (IH z H0) as (w & Hw & Pw). exists w. split; [right|]; assumption. Qed.
(** *** squares of side 4 around [(c, 0)] *)
Record is_sq (c : R) (s : poly R) : Prop := {
  sq_pts : p_pts s = rpts (c - 2) (-2) (c + 2) 2;
  sq_area : p_area s = 16;
  sq_box : p_bbox s = Rc (c - 2) (-2) (c + 2) 2 }.
Lemma sq_centroid : forall c s, is_sq c s -> p_centroid s = Pt c 0.
Proof.
  intros c s [P A B]. rewrite centroid_ok, P, A. unfold mx, my, total, rpts, ring, crs. cbn [path_edges fold_right es ee px py]. apply pt_ext; cbn [px py]; field.
Qed.
Lemma sq_wf : forall c s, is_sq c s -> wf_poly s.
Proof.
  intros c s [P A B]. apply wf_ring. rewrite P. unfold rpts, ring. cbn [path_edges In]. intros e He.
  repeat (destruct He as [<-|He]; [cbn [es ee]; intros E; injection E; intros; lra|]). destruct He.
Qed.
Lemma sq_side : forall c s, is_sq c s -> Rmax (x_max (p_bbox s) - x_min (p_bbox s)) (y_max (p_bbox s) - y_min (p_bbox s)) = 4.
Proof. intros c s [P A B]. rewrite B. cbn [x_min x_max y_min y_max]. rewrite Rmax_left; lra. Qed.
Lemma sq_ray_x : forall c s nr i, is_sq c s -> (i < nr)%nat -> ray_x nr s i = 2 * c - 2 + 4 * INR i / INR nr.
Proof.
  intros c s nr i Q Hi. unfold ray_x. cbn zeta. rewrite (sq_side c s Q), (sq_centroid c s Q), (sq_box c s Q). cbn [x_min x_max y_min y_max px py]. lra.
Qed.
Lemma sq_missed : forall cfg s n poles, is_sq 12 s -> generate_piers cfg s (S n) poles = Panic.
Proof.
  intros cfg s n poles Q. apply (missed _ _ _ _ 22); [exact (sq_wf _ _ Q)| |lra|].
  - rewrite (sq_pts _ _ Q). intros p (e & He & t & Ht & ->). unfold rpts, ring in He. cbn [path_edges In] in He.
    unfold norm2. repeat (destruct He as [<-|He]; [unfold at_t; cbn [es ee px py]; nra|]). destruct He.
  - intros i Hi. rewrite (sq_ray_x _ _ _ _ Q Hi). assert (0 <= 4 * INR i / INR (pc_rays cfg)); [|lra].
    apply Rmult_le_pos; [pose proof (pos_INR i); lra|]. apply Rlt_le, Rinv_0_lt_compat, lt_0_INR. lia.
Qed.
Lemma sq_second : forall cfg s, is_sq 0 s -> (2 <= pc_rays cfg)%nat -> (1 <= pc_angles cfg)%nat ->
  In (pier_ray (pc_pi cfg) (pc_angles cfg) (pc_rays cfg) s 0 1)
     (map (fun t => tr_edge t (base_ray s)) (ray_transformations (pc_pi cfg) (inflate_to_square (p_bbox s)) (pc_rays cfg) (pc_angles cfg))).
Proof.
  intros cfg s Q Hr Ha. destruct (pc_rays cfg) as [|[|r]] eqn:Er; try lia. destruct (pc_angles cfg) as [|a] eqn:Ea; try lia.
  destruct (rays_head (pc_pi cfg) (inflate_to_square (p_bbox s)) r a) as (rest & E). rewrite E. cbn [map]. right. left.
  destruct (square_sides (p_bbox s)) as (E1 & E2 & E3). rewrite (sq_side _ _ Q) in E1, E2, E3.
  assert (N9 : INR (S a) <> 0) by (apply not_0_INR; lia). assert (N2 : INR (S (S r)) <> 0) by (apply not_0_INR; lia).
  unfold tr_edge, base_ray, pier_ray; cbn [es ee]; cbn zeta; rewrite !turn_shift, E1, E2, E3, (sq_side _ _ Q); cbn [px py].
  replace (Nat.ltb 1 (S a + 1)) with true by (symmetry; apply Nat.ltb_lt; lia). replace (S a + 1 - 1)%nat with (S a) by lia.
  change (INR 0) with 0. change (INR 1) with 1. set (u := INR (S (S r))) in *. set (w := INR (S a)) in *.
  f_equal; (f_equal; [field; assumption|]; f_equal; field; assumption).
Qed.
Lemma sq_clip : forall cfg s k i, is_sq 0 s -> (i < pc_rays cfg)%nat ->
  let ray := pier_ray (pc_pi cfg) (pc_angles cfg) (pc_rays cfg) s k i in
  clip (pc_trim cfg) s ray = Ok (clip_pairs (pc_trim cfg) (sort_by (fun p => pt_dist (es ray) p) (hits (p_pts s) ray))).
Proof.
  intros cfg s k i Q Hi ray. rewrite (clip_eq _ _ _ (sq_wf _ _ Q)).
  assert (G : forall a x y, 64 <= y * y -> pp_collides s (turned a (Pt x y)) = Ok false).
  { intros a x y L. unfold pp_collides. destruct (rp_collides (p_bbox s) (turned a (Pt x y))) eqn:E; [|reflexivity]. exfalso. apply rp_collides_iff in E.
    pose proof (turned_norm a (Pt x y)) as Nn. unfold norm2 in Nn. cbn [px py] in Nn. rewrite (sq_box _ _ Q) in E. unfold in_rect in E.
    set (q := turned a (Pt x y)) in *. cbn [x_min x_max y_min y_max] in E. destruct E as (E1 & E2). assert (px q * px q <= 4) by nra. assert (py q * py q <= 4) by nra. nra. }
  subst ray. unfold pier_ray. cbn zeta. rewrite (sq_side _ _ Q), (sq_centroid _ _ Q). cbn [px py es ee]. rewrite !G by lra. reflexivity.
Qed.
Lemma sq_found : forall cfg s n poles, is_sq 0 s -> (2 <= pc_rays cfg)%nat -> (1 <= pc_angles cfg)%nat -> exists ps, generate_piers cfg s n poles = Ok ps.
Proof.
  intros cfg s [|n] poles Q Hr Ha; [eexists; reflexivity|]. unfold generate_piers.
  assert (Eb : edge_new (es (base_ray s)) (ee (base_ray s)) = Ok (base_ray s)).
  { unfold edge_new. destruct (square_sides (p_bbox s)) as (_ & _ & E3). rewrite (sq_side _ _ Q) in E3.
    rewrite pt_eq_no; [reflexivity|]. unfold base_ray; cbn [es ee]. rewrite E3. intros H. injection H. lra. }
  change (edge_new _ _) with (edge_new (es (base_ray s)) (ee (base_ray s))). rewrite Eb. cbn [rbind].
  set (rays := map (fun t => tr_edge t (base_ray s)) _).
  destruct (rmapM_inv (clip (pc_trim cfg) s) (fun ray out => out = clip_pairs (pc_trim cfg) (sort_by (fun p => pt_dist (es ray) p) (hits (p_pts s) ray))) rays) as (cl & Ec & Fc).
  { intros ray Hi. apply in_rays in Hi as (k & i & _ & Hi & ->). eexists. split; [|reflexivity]. apply sq_clip; assumption. }
  rewrite Ec. cbn [rbind]. destruct (grid_total (inflate_to_square (p_bbox s)) s poles (pc_points cfg) (sq_wf _ _ Q)) as (g & Eg).
  rewrite Eg. cbn [rbind]. apply select_total. pose proof (sq_second cfg s Q Hr Ha) as I2. fold rays in I2.
  destruct (F2_l _ _ _ Fc _ I2) as (out & Io & Eo). intros Z.
  enough (K : exists e, In e out) by (destruct K as (e & He); assert (In e (concat cl)) as C by (apply in_concat; eauto); rewrite Z in C; exact C).
  set (x := -2 + 4 * 1 / INR (pc_rays cfg)).
  assert (Er : pier_ray (pc_pi cfg) (pc_angles cfg) (pc_rays cfg) s 0 1 = Ed (Pt x (-8)) (Pt x 8)).
  { unfold pier_ray. cbn zeta. fold (ray_x (pc_rays cfg) s 1). rewrite (sq_ray_x 0) by (assumption || lia). rewrite (sq_side _ _ Q), (sq_centroid _ _ Q). cbn [px py].
    change (INR 0) with 0. change (INR 1) with 1. replace (pc_pi cfg * 0 / INR (pc_angles cfg)) with 0 by (unfold Rdiv; ring). unfold turned. rewrite cos_0, sin_0. cbn [px py].
    unfold x. f_equal; apply pt_ext; cbn [px py]; lra. }
  assert (Xb : -2 < x < 2).
  { assert (2 <= INR (pc_rays cfg)) by (apply (le_INR 2); exact Hr). unfold x. unfold Rdiv.
    assert (0 < / INR (pc_rays cfg)) by (apply Rinv_0_lt_compat; lra). assert (/ INR (pc_rays cfg) <= / 2) by (apply Rinv_le_contravar; lra). lra. }
  rewrite Er in Eo. assert (H : hits (p_pts s) (Ed (Pt x (-8)) (Pt x 8)) = [Pt x (-2); Pt x 2]).
  { rewrite (sq_pts _ _ Q). unfold hits, rpts, ring. cbn [path_edges omap].
    rewrite (vertical_some _ _ _ _ _ (-2)); [|cbn; lra|lra|lra|apply seg_horiz; lra]. rewrite vertical_none by (cbn; lra).
    rewrite (vertical_some _ _ _ _ _ 2); [|cbn; lra|lra|lra|apply seg_horiz; lra]. rewrite vertical_none by (cbn; lra). reflexivity. }
  rewrite H in Eo. unfold sort_by in Eo. cbn [fold_left insert_by es] in Eo. rewrite !pt_dist_ok in Eo. unfold edist in Eo. cbn [px py flt RNum RNumT] in Eo.
  replace (Rltb _ _) with false in Eo by (symmetry; apply Rltb_nspec; apply sqrt_le_1_alt; lra).
  cbn [clip_pairs] in Eo. rewrite pt_eq_no in Eo by (intros Z'; injection Z'; lra). subst out. eexists. left. reflexivity.
Qed.
