(** Proofs about distances, boxes, stretching, buffers and moved surrogates. *)
From Coq Require Import List Bool Arith Lia.
From Verif Require Import Base Num GeoModel HazardModel QTModel TransfModel HpgModel CdeModel BaseProofs CdeSpec GeoSpec ParityProofs GeoPrimProofs GeoRectProofs PipProofs
  HazVecProofs QTProofs CdeProofs PlaceSpec RigidProofs RegionProofs CdeGeoProofs HpgCellProofs MeasureSpec XformProofs PlaceExampleProofs.
From Coq Require Import Reals Lra.
From Verif Require Import GeoModel HazardModel TransfModel GeoSpec PlaceSpec MeasureSpec.
Import ListNotations.
Local Open Scope R_scope.

(** *** buffers, for every number type *)
Section Buf.
  Context {F : Type} {N : Num F}.
  Definition like (s b : poly F) : Prop :=
    length (p_pts b) = length (p_pts s) /\ p_area b = p_area s /\ p_diam b = p_diam s /\ crad (p_poi b) = crad (p_poi s) /\
    match p_surr s, p_surr b with
    | None, None => True
    | Some u, Some v => s_hull v = s_hull u /\ map (@crad F) (s_poles v) = map (@crad F) (s_poles u) /\ crad (s_bcircle v) = crad (s_bcircle u) /\
        length (s_piers v) = length (s_piers u) /\ s_nff v = s_nff u
    | _, _ => False
    end.
  Lemma zip_all : forall {A} (g : A -> A) (buf ref : list A), length buf = length ref -> zip_from (fun _ r => g r) buf ref = map g ref.
  Proof. intros A g buf. induction buf as [|b buf IH]; intros [|r ref] H; cbn in *; try discriminate; [reflexivity|]. f_equal. auto. Qed.
  Lemma zip_circ : forall t (buf ref : list (circle F)), map (@crad F) buf = map (@crad F) ref -> zip_from (tr_circle_from t) buf ref = map (tr_circle t) ref.
  Proof.
    intros t buf. induction buf as [|b buf IH]; intros [|r ref] H; cbn in *; try discriminate; [reflexivity|]. injection H as H1 H2.
    f_equal; [|auto]. unfold tr_circle_from, tr_circle. rewrite H1. reflexivity.
  Qed.
  Lemma like_from : forall t s b, like s b -> tr_poly_from t b s = Ok (tr_poly t s).
  Proof.
    intros t s b (Lp & La & Ld & Lc & Lu). unfold tr_poly_from, tr_poly. rewrite (zip_all (tr_point t)) by exact Lp. rewrite La, Ld.
    assert (Ec : tr_circle_from t (p_poi b) (p_poi s) = tr_circle t (p_poi s)) by (unfold tr_circle_from, tr_circle; rewrite Lc; reflexivity).
    rewrite Ec. destruct (p_surr s) as [u|], (p_surr b) as [v|]; cbn [expect rbind option_map]; try contradiction; [|reflexivity].
    destruct Lu as (H1 & H2 & H3 & H4 & H5). do 3 f_equal. unfold tr_surr_from, tr_surr. rewrite zip_circ by exact H2. rewrite (zip_all (tr_edge t)) by exact H4.
    unfold tr_circle_from, tr_circle. rewrite H1, H3, H5. reflexivity.
  Qed.
  Lemma like_tr : forall t s b, like s b -> like s (tr_poly t b).
  Proof.
    intros t s b (Lp & La & Ld & Lc & Lu). unfold tr_poly, like. cbn [p_pts p_area p_diam p_poi p_surr crad tr_circle]. rewrite map_length.
    split; [exact Lp|]. split; [exact La|]. split; [exact Ld|]. split; [exact Lc|].
    destruct (p_surr s) as [u|], (p_surr b) as [v|]; cbn [option_map]; try contradiction; [|exact Logic.I].
    destruct Lu as (H1 & H2 & H3 & H4 & H5). cbn. rewrite map_length, map_map. cbn. auto.
  Qed.
  Lemma like_refl : forall s, like s s.
  Proof. intros s. unfold like. destruct (p_surr s); repeat split. Qed.
  Lemma buffer_like : forall s b, buffer_of s b -> like s b.
  Proof.
    intros s b H. induction H as [|b t b' _ IH E|b t _ IH]; [apply like_refl| |apply like_tr; exact IH].
    rewrite (like_from t s b IH) in E. injection E as <-. apply like_tr, like_refl.
  Qed.
  (** overwriting a buffer gives the transformed shape, whatever the buffer was used for *)
  Theorem overwritten : forall s b t, buffer_of s b -> tr_poly_from t b s = Ok (tr_poly t s).
  Proof. intros s b t H. apply like_from, buffer_like, H. Qed.
End Buf.

#[local] Existing Instance RNum.

(** *** moved parts *)
Lemma disk_image : forall t k, rigid t -> image (tr_point t) (in_disk k) (in_disk (tr_circle t k)).
Proof.
  intros t k Rg q. unfold in_disk, tr_circle. cbn [ccen crad]. split.
  - intros H. destruct (rigid_surj t Rg q) as (p & ->). rewrite (rigid_dist t Rg) in H. eauto.
  - intros (p & H & ->). rewrite (rigid_dist t Rg). exact H.
Qed.
Lemma seg_image : forall t e, rigid t -> image (tr_point t) (on_seg e) (on_seg (tr_edge t e)).
Proof.
  intros t e Rg q. unfold tr_edge. rewrite !(tr_rot t Rg). set (g := rot (m00 t) (m10 t) (m02 t) (m12 t)).
  assert (K : forall u, at_t (Ed (g (es e)) (g (ee e))) u = g (at_t e u)) by (intros u; unfold at_t, g, rot; cbn; f_equal; ring).
  split.
  - intros (u & Hu & ->). exists (at_t e u). split; [exists u; auto|]. rewrite K, (tr_rot t Rg). reflexivity.
  - intros (p & (u & Hu & ->) & ->). exists u. split; [exact Hu|]. rewrite K, (tr_rot t Rg). reflexivity.
Qed.
Theorem parts_move : forall t s, rigid t ->
  image (tr_point t) (in_disk (p_poi s)) (in_disk (p_poi (tr_poly t s))) /\ crad (p_poi (tr_poly t s)) = crad (p_poi s) /\
  (p_surr s = None -> p_surr (tr_poly t s) = None) /\
  forall u, p_surr s = Some u -> exists v, p_surr (tr_poly t s) = Some v /\
    Forall2 (fun k k' => image (tr_point t) (in_disk k) (in_disk k') /\ crad k' = crad k) (s_poles u) (s_poles v) /\
    (image (tr_point t) (in_disk (s_bcircle u)) (in_disk (s_bcircle v)) /\ crad (s_bcircle v) = crad (s_bcircle u)) /\
    Forall2 (fun e e' => image (tr_point t) (on_seg e) (on_seg e')) (s_piers u) (s_piers v) /\
    (forall i, In i (s_hull v) <-> In i (s_hull u)) /\
    (forall i p, nth_error (p_pts s) i = Some p -> nth_error (p_pts (tr_poly t s)) i = Some (tr_point t p)) /\ s_nff v = s_nff u.
Proof.
  intros t s Rg. split; [apply disk_image, Rg|]. split; [reflexivity|]. split; [intros E; unfold tr_poly; cbn; rewrite E; reflexivity|].
  intros u E. exists (tr_surr t u). split; [unfold tr_poly; cbn; rewrite E; reflexivity|]. unfold tr_surr. cbn [s_poles s_bcircle s_piers s_hull s_nff].
  split; [|split; [split; [apply disk_image, Rg|reflexivity]|split; [|split; [tauto|split; [|reflexivity]]]]].
  - induction (s_poles u) as [|k l IH]; [constructor|]. constructor; [|exact IH]. split; [apply disk_image, Rg|reflexivity].
  - induction (s_piers u) as [|e l IH]; [constructor|]. constructor; [|exact IH]. apply seg_image, Rg.
  - intros i p Hi. cbn. apply map_nth_error. exact Hi.
Qed.
Theorem box_moves : forall t (s : poly R), rigid t -> p_pts s <> [] -> tight_box (fun q => exists p, In p (p_pts s) /\ q = tr_point t p) (p_bbox (tr_poly t s)).
Proof.
  intros t s Rg Ne. assert (Nm : map (tr_point t) (p_pts s) <> []) by (intros K; apply map_eq_nil in K; contradiction).
  cbn [tr_poly p_bbox]. destruct (bbox_ok _ Nm) as (A & B). split.
  - intros q (p & Hp & ->). apply A, in_map_iff. exists p. auto.
  - intros r' H p (X & Y). assert (K : forall q, In q (map (tr_point t) (p_pts s)) -> in_rect r' q).
    { intros q Hq. apply in_map_iff in Hq. destruct Hq as (x & <- & Hx). apply H. eauto. }
    destruct B as ((a & Ha & Ea) & (b & Hb & Eb) & (c & Hc & Ec) & (d & Hd & Ed)).
    apply K in Ha, Hb, Hc, Hd. destruct Ha as (Ha & _), Hb as (Hb & _), Hc as (_ & Hc), Hd as (_ & Hd). split; lra.
Qed.

(** *** boxes *)
Lemma disk_box : forall k : rcircle, 0 <= crad k -> tight_box (in_disk k) (c_bbox k).
Proof.
  intros k Hk. unfold c_bbox. destruct (ccen k) as [cx cy] eqn:Ec. cbn [px py]. split.
  - intros p H. unfold in_disk in H. rewrite Ec in H. destruct (edist_coord p (Pt cx cy)) as (X & Y). cbn [px py] in X, Y. unr.
    unfold Rabs in X, Y. split; cbn; destruct (Rcase_abs (px p - cx)), (Rcase_abs (py p - cy)); lra.
  - intros r' H p (X & Y). cbn in X, Y.
    assert (Z : forall dx dy, (dx = 0 \/ dy = 0) -> Rabs dx <= crad k -> Rabs dy <= crad k -> in_rect r' (Pt (cx + dx) (cy + dy))).
    { intros dx dy Hz Hx Hy. apply H. unfold in_disk. rewrite Ec. destruct Hz as [-> | ->]; rewrite Rplus_0_r.
      - rewrite edist_vert. replace (cy + dy - cy) with dy by ring. exact Hy.
      - rewrite edist_horiz. replace (cx + dx - cx) with dx by ring. exact Hx. }
    pose proof (Rabs_pos_eq _ Hk) as A1. pose proof (Rabs_Ropp (crad k)) as A2. rewrite A1 in A2. pose proof Rabs_R0 as A0.
    destruct (Z (crad k) 0) as (Z1 & _); [auto|lra|lra|]. destruct (Z (- crad k) 0) as (Z2 & _); [auto|lra|lra|].
    destruct (Z 0 (crad k)) as (_ & Z3); [auto|lra|lra|]. destruct (Z 0 (- crad k)) as (_ & Z4); [auto|lra|lra|]. cbn in *. split; lra.
Qed.
Lemma scaled : forall (r : rrect) k, proper r -> 0 < k ->
  proper (r_scale r k) /\ middle (r_scale r k) = middle r /\ image (stretch (middle r) k) (in_rect r) (in_rect (r_scale r k)).
Proof.
  intros r k (Px & Py) Hk. unfold r_scale, f2. unr. cbn [Num.f1 Num.fofN].
  assert (Mx : 0 < k * (x_max r - x_min r)) by (apply Rmult_lt_0_compat; lra). assert (My : 0 < k * (y_max r - y_min r)) by (apply Rmult_lt_0_compat; lra).
  split; [split; cbn; lra|]. split; [unfold middle; cbn; f_equal; lra|].
  assert (Inv : forall a, k * (a / k) = a) by (intros; field; lra).
  intros q. split.
  - intros (X & Y). cbn in X, Y. exists (stretch (middle r) (/ k) q). unfold stretch, middle. cbn. split.
    + assert (K : forall lo hi x, lo - (hi - lo) * (k - 1) / 2 <= x <= hi + (hi - lo) * (k - 1) / 2 -> lo <= (lo + hi) / 2 + / k * (x - (lo + hi) / 2) <= hi).
      { intros lo hi x (H1 & H2). assert (Z : k * (/ k * (x - (lo + hi) / 2)) = x - (lo + hi) / 2) by (field; lra).
        set (z := / k * (x - (lo + hi) / 2)) in *. split.
        - apply Rmult_le_reg_l with k; [exact Hk|]. lra.
        - apply Rmult_le_reg_l with k; [exact Hk|]. lra. }
      split; cbn; apply K; lra.
    + destruct q as [qx qy]. cbn. f_equal; field; lra.
  - intros (p & (X & Y) & ->). unfold stretch, middle.
    assert (K : forall lo hi x, lo <= x <= hi -> lo - (hi - lo) * (k - 1) / 2 <= (lo + hi) / 2 + k * (x - (lo + hi) / 2) <= hi + (hi - lo) * (k - 1) / 2).
    { intros lo hi x (H1 & H2). pose proof (Rmult_le_compat_l k lo x (Rlt_le _ _ Hk) H1). pose proof (Rmult_le_compat_l k x hi (Rlt_le _ _ Hk) H2). lra. }
    split; cbn; apply K; assumption.
Qed.

(** *** distances *)
Lemma disks_apart : forall a b : rcircle, 0 <= crad a -> 0 <= crad b -> set_distance (in_disk a) (in_disk b) (cc_dist a b).
Proof.
  intros a b Ha Hb. unfold cc_dist. pose proof (cc_dist_border_ok a b Ha Hb) as H. destruct (cc_dist_border a b) as [pos d]. destruct H as (Nd & Hi & He).
  destruct pos; cbn [dist_of_border].
  1: { destruct (He eq_refl) as (H1 & H2). split; assumption. }
  destruct (Hi eq_refl) as (L & _). change (@f0 R RNum) with 0. split; [|intros; apply edist_nonneg].
  destruct (Rle_or_lt (crad a) (edist (ccen a) (ccen b))) as [Le|Lt].
  - destruct (walk (ccen a) (ccen b) (crad a) Ha) as (x & A & C & _). exists x, x. unfold in_disk. rewrite edist_refl.
    rewrite (edist_sym x (ccen a)), A. rewrite C by exact Le. lra.
  - exists (ccen b), (ccen b). unfold in_disk. rewrite !edist_refl, (edist_sym (ccen b)). lra.
Qed.
Lemma disk_seg_apart : forall (c : rcircle) e, 0 <= crad c -> set_distance (in_disk c) (on_seg e) (ce_dist c e).
Proof.
  intros c e Hc. unfold ce_dist. pose proof (ce_dist_border_ok c e Hc) as H. destruct (ce_dist_border c e) as [pos d]. destruct H as (Nd & Hi & He).
  destruct pos; cbn [dist_of_border].
  1: { destruct (He eq_refl) as (H1 & H2). split; assumption. }
  destruct (Hi eq_refl) as (m & ((q & Oq & Eq) & _) & Lm & _). change (@f0 R RNum) with 0. split; [|intros; apply edist_nonneg].
  exists q, q. split; [unfold in_disk; rewrite edist_sym; lra|]. split; [exact Oq|apply edist_refl].
Qed.
Lemma edge_min : forall (s : poly R) p, sound_poly s -> p_pts s <> [] ->
  exists m, (ds <- rmapM (fun i => e <- get_edge s i ;; Ok (e_sqdist e p)) (edge_indices s) ;; expect (fmin_list ds)) = Ok (m * m) /\
    distance_to (on_border (p_pts s)) p m.
Proof.
  intros s p So Ne. pose proof (sound_wf s So) as W.
  rewrite (rmapM_ok _ (fun i => e_sqdist (edge_at s i) p)).
  2: { intros i Hi. unfold edge_indices in Hi. apply in_seq in Hi. rewrite (get_edge_at s i W) by lia. reflexivity. }
  cbn [rbind]. rewrite <- (map_map (edge_at s) (fun e => e_sqdist e p)), (map_edge_at s W).
  assert (Rn : ring (p_pts s) <> []) by (destruct (p_pts s) as [|a [|b r]]; [congruence|discriminate|discriminate]).
  destruct (fmin_list_ok 0 (map (fun e => e_sqdist e p) (ring (p_pts s)))) as (m & Em & Im & Lm).
  { intros K. apply map_eq_nil in K. contradiction. }
  change (@fmin_list R RNum (map (fun e => e_sqdist e p) (ring (p_pts s))) = Some m) in Em. rewrite Em. cbn [expect].
  apply in_map_iff in Im. destruct Im as (e & Ee & Ie). rewrite e_sqdist_ok in Ee. exists (edist p (closest_point_on_edge e p)). split; [congruence|]. split.
  - exists (closest_point_on_edge e p). split; [|reflexivity]. exists e. split; [exact Ie|apply closest_ok].
  - intros q (e' & Ie' & Oq). assert (K : m <= e_sqdist e' p) by (apply Lm, in_map_iff; exists e'; auto).
    rewrite <- Ee, e_sqdist_ok in K. assert (L : edist p (closest_point_on_edge e' p) <= edist p q) by (apply (closest_ok e' p); exact Oq).
    pose proof (edist_nonneg p (closest_point_on_edge e p)). pose proof (edist_nonneg p (closest_point_on_edge e' p)).
    destruct (Rle_or_lt (edist p (closest_point_on_edge e p)) (edist p q)) as [|G]; [assumption|exfalso].
    pose proof (Rmult_le_0_lt_compat _ _ _ _ H0 H0 (Rle_lt_trans _ _ _ L G) (Rle_lt_trans _ _ _ L G)). lra.
Qed.
Theorem border_distance : forall (s : poly R) p, sound_poly s -> p_pts s <> [] ->
  exists pos m, p_sqdist_border s p = Ok (pos, m * m) /\ p_dist_border s p = Ok (pos, m) /\ distance_to (on_border (p_pts s)) p m /\
    (on_border (p_pts s) p \/ (pos = Interior <-> even_odd (p_pts s) p = true)).
Proof.
  intros s p So Ne. destruct (edge_min s p So Ne) as (m & Em & Dm). pose proof (sound_wf s So) as W. unfold p_dist_border.
  assert (E : exists b, pp_collides s p = Ok b /\ p_sqdist_border s p = Ok (if b then Interior else Exterior, m * m)).
  { destruct (pp_total s p W) as (b & Eb). exists b. split; [exact Eb|]. unfold p_sqdist_border.
    destruct (rmapM (fun i => e <- get_edge s i ;; Ok (e_sqdist e p)) (edge_indices s)) as [ds|]; [|discriminate]. cbn [rbind] in *. rewrite Em. cbn [rbind].
    rewrite Eb. reflexivity. }
  destruct E as (b & Eb & E). exists (if b then Interior else Exterior), m. rewrite E. cbn [rbind]. split; [reflexivity|]. split; [|split; [exact Dm|]].
  - do 2 f_equal. apply sqrt_square. destruct Dm as [(q & _ & <-) _]. apply edist_nonneg.
  - destruct (on_border_dec (p_pts s) p) as [B|B]; [left; exact B|right]. rewrite (pip s p W (proj2 So) B) in Eb. injection Eb as <-.
    destruct (even_odd (p_pts s) p); split; congruence.
Qed.
Theorem region_distance : forall (s : poly R) p, sound_poly s -> p_pts s <> [] ->
  exists m, p_sqdist s p = Ok (m * m) /\ distance_to (region (p_pts s)) p m.
Proof.
  intros s p So Ne. destruct (edge_min s p So Ne) as (m & Em & (q0 & B0 & D0) & Dm). pose proof (sound_wf s So) as W. unfold p_sqdist.
  destruct (pp_total s p W) as (b & Eb). rewrite Eb. cbn [rbind].
  assert (In0 : forall x, region (p_pts s) x -> x = p -> distance_to (region (p_pts s)) p 0).
  { intros x Hx ->. split; [exists p; split; [exact Hx|apply edist_refl]|intros; apply edist_nonneg]. }
  destruct (on_border_dec (p_pts s) p) as [B|B].
  - exists 0. split; [|apply (In0 p); [left; exact B|reflexivity]]. destruct b; [cbn; f_equal; ring|]. rewrite Em. f_equal.
    apply Dm in B. rewrite edist_refl in B. assert (m = 0) as -> by (pose proof (edist_nonneg p q0); lra). reflexivity.
  - rewrite (pip s p W (proj2 So) B) in Eb. injection Eb as <-. destruct (even_odd (p_pts s) p) eqn:Eo.
    + exists 0. split; [cbn; f_equal; ring|]. apply (In0 p); [right; exact Eo|reflexivity].
    + exists m. split; [exact Em|]. split; [exists q0; split; [left; exact B0|exact D0]|].
      intros q [Bq|Eq]; [apply Dm; exact Bq|]. destruct (Rle_or_lt m (edist p q)) as [|Lq]; [assumption|exfalso].
      assert (Nb : forall x, on_seg (Ed p q) x -> ~ on_border (p_pts s) x).
      { intros x (t & Ht & ->) Bx. apply Dm in Bx. assert (K : edist p (at_t (Ed p q) t) <= edist p q); [|lra].
        apply edist_le; [apply edist_nonneg|]. rewrite edist_sq. unfold at_t. cbn [px py es ee].
        replace ((px p - (px p + t * (px q - px p))) ^ 2 + (py p - (py p + t * (py q - py p))) ^ 2) with (t * t * ((px p - px q) ^ 2 + (py p - py q) ^ 2)) by ring.
        pose proof (sqd_nonneg (px p - px q) (py p - py q)). assert (t * t <= 1) by nra. nra. }
      rewrite (even_odd_path _ _ _ Nb), Eq in Eo. discriminate.
Qed.

(** *** equality of transformations *)
Theorem eq_means_same : forall a b, last_row a -> last_row b -> (t_eqb a b = true <-> forall p, tr_point a p = tr_point b p).
Proof.
  intros a b (A0 & A1 & A2) (B0 & B1 & B2). unfold t_eqb. rewrite !andb_true_iff.
  assert (K : forall x y : R, feq x y = true <-> x = y) by (intros x y; cbn; unfold Reqb; destruct (Req_EM_T x y); split; congruence).
  rewrite !K. split.
  - intros H p. unfold tr_point. decompose [and] H. congruence.
  - intros H. pose proof (H (Pt 0 0)) as H0. pose proof (H (Pt 1 0)) as H1. pose proof (H (Pt 0 1)) as H2. unfold tr_point in *. cbn in *.
    injection H0 as X0 Y0. injection H1 as X1 Y1. injection H2 as X2 Y2. repeat split; lra.
Qed.
Theorem recipes_equal : forall x y, t_eqb (build x) (build y) = true <-> forall p, tr_point (build x) p = tr_point (build y) p.
Proof. intros x y. apply eq_means_same; apply build_affine. Qed.
Theorem empty_means_still : forall a, last_row a -> (t_is_empty a = true <-> forall p, tr_point a p = p).
Proof.
  intros a A. assert (E : forall p, tr_point t_empty p = p) by (intros [x y]; unfold tr_point, t_empty; cbn; f_equal; ring).
  unfold t_is_empty. rewrite (eq_means_same a t_empty A) by (repeat split). split; intros H p; [rewrite H; apply E|rewrite E; apply H].
Qed.

(** *** a square and a point *)
Definition ms := rbox 0 0 4 4 2.
Lemma ms_sound : sound_poly ms /\ p_pts ms <> [].
Proof. split; [apply RegionProofs.good_sound, rbox_good; lra|discriminate]. Qed.
Lemma ms_dist : p_sqdist ms (Pt 7 8) = Ok 25 /\ p_dist_border ms (Pt 7 8) = Ok (Exterior, 5).
Proof.
  destruct ms_sound as (So & Ne). assert (C : on_border (p_pts ms) (Pt 4 4)).
  { exists (Ed (Pt 4 4) (Pt 0 4)). split; [cbn; auto|]. exists 0. split; [lra|]. apply pt_ext; cbn; lra. }
  assert (D5 : edist (Pt 7 8) (Pt 4 4) = 5).
  { unfold edist. cbn [px py]. replace ((7 - 4) ^ 2 + (8 - 4) ^ 2) with (5 * 5) by ring. apply sqrt_square. lra. }
  assert (Far : forall q, in_rect (Rc 0 0 4 4) q -> 5 <= edist (Pt 7 8) q).
  { intros q (X & Y). cbn in X, Y. rewrite <- (sqrt_square 5) by lra. unfold edist. cbn [px py]. apply sqrt_le_1_alt.
    assert (9 <= (7 - px q) ^ 2) by nra. assert (16 <= (8 - py q) ^ 2) by nra. lra. }
  split.
  - destruct (region_distance ms (Pt 7 8) So Ne) as (m & -> & (q & Rq & Eq) & Mq). f_equal.
    apply rbox_region in Rq; [|lra|lra]. apply Far in Rq. specialize (Mq (Pt 4 4) (or_introl C)). assert (m = 5) as -> by lra. lra.
  - destruct (border_distance ms (Pt 7 8) So Ne) as (pos & m & _ & -> & ((q & Rq & Eq) & Mq) & P). f_equal.
    assert (Rq' : region (p_pts ms) q) by (left; exact Rq). apply rbox_region in Rq'; [|lra|lra]. apply Far in Rq'. specialize (Mq (Pt 4 4) C). f_equal; [|lra].
    assert (No : ~ region (p_pts ms) (Pt 7 8)) by (intros K; apply rbox_region in K; [destruct K as (K & _); cbn in K; lra|lra|lra]).
    destruct pos; [reflexivity|]. exfalso. apply No. destruct P as [P|P]; [left; exact P|right; apply P; reflexivity].
Qed.
Lemma ms_others : cc_dist (Ci (Pt 0 0) 1) (Ci (Pt 3 4) 1) = 3 /\ c_bbox (Ci (Pt 3 4) 1) = Rc 2 3 4 5 /\ r_scale (Rc 0 0 4 2) 2 = Rc (-2) (-1) 6 3.
Proof.
  split; [|split].
  - destruct (disks_apart (Ci (Pt 0 0) 1) (Ci (Pt 3 4) 1)) as ((p & q & Hp & Hq & E) & H); [cbn; lra|cbn; lra|].
    assert (D5 : edist (Pt 0 0) (Pt 3 4) = 5).
    { unfold edist. cbn [px py]. replace ((0 - 3) ^ 2 + (0 - 4) ^ 2) with (5 * 5) by ring. apply sqrt_square. lra. }
    unfold in_disk in *. cbn [ccen crad] in *. pose proof (edist_tri (Pt 0 0) p (Pt 3 4)) as T1. pose proof (edist_tri p q (Pt 3 4)) as T2. rewrite (edist_sym (Pt 0 0) p) in T1.
    assert (K : cc_dist (Ci (Pt 0 0) 1) (Ci (Pt 3 4) 1) <= 3); [|lra].
    assert (S1 : forall a b c d r, 0 <= r -> (a - c) ^ 2 + (b - d) ^ 2 = r * r -> edist (Pt a b) (Pt c d) = r).
    { intros a b c d r Hr Es. unfold edist. cbn [px py]. rewrite Es. apply sqrt_square. exact Hr. }
    pose proof (S1 (3/5) (4/5) (3 - 3/5) (4 - 4/5) 3 ltac:(lra) ltac:(lra)) as S3.
    apply Rle_trans with (edist (Pt (3/5) (4/5)) (Pt (3 - 3/5) (4 - 4/5))); [|lra]. apply H; rewrite (S1 _ _ _ _ 1); lra.
  - unfold c_bbox. cbn. f_equal; lra.
  - unfold r_scale, f2. cbn. f_equal; lra.
Qed.
Lemma ms_moved : exists (t : transf R) u, rigid t /\ p_surr ms = Some u /\ length (s_poles u) = 1%nat /\ length (s_piers u) = 1%nat /\
  buffer_of (N := RNum) ms (tr_poly (N := RNum) t ms) /\ t_is_empty (N := RNum) t = false /\ last_row t.
Proof.
  exists (transl_m (N := RNum) 1 2). eexists. split; [unfold rigid; cbn; lra|]. split; [reflexivity|]. split; [reflexivity|]. split; [reflexivity|].
  split; [apply buf_moved, buf_clone|]. assert (L : last_row (transl_m (N := RNum) 1 2)) by (repeat split). split; [|exact L].
  destruct (t_is_empty (N := RNum) (transl_m (N := RNum) 1 2)) eqn:E; [|reflexivity]. pose proof (proj1 (empty_means_still _ L) E (Pt 0 0)) as K; clear E; rename K into E. cbn in E. injection E as E1 E2. lra.
Qed.
