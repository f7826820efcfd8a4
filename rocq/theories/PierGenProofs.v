(** The selection of piers. *)
From Coq Require Import Reals List Bool Arith Lra Lia Psatz Permutation Sorted.
From Verif Require Import Base Num GeoModel HazardModel QTModel TransfModel PolyModel GeoSpec ShapeSpec PlaceSpec HpgSpec
  BaseProofs QTProofs ParityProofs GeoPrimProofs GeoRectProofs PipProofs TouchProofs RegionProofs RigidProofs
  XformProofs NormProofs HullProofs PoleProofs ConstructProofs CrossProofs PierProofs.
Import ListNotations.
Local Open Scope R_scope.
#[local] Existing Instance RNum.
#[local] Existing Instance RTrig.
#[local] Opaque next_pole MAX_POI_TREE_DEPTH.

Lemma select_ok : forall n radius forfeit rays grid poles sel out,
  select_piers n radius forfeit rays grid poles sel = Ok out ->
  exists add, out = sel ++ add /\ length add = n /\ forall e, In e add -> In e rays.
Proof.
  induction n as [|n IH]; intros radius forfeit rays grid poles sel out E; cbn [select_piers] in E.
  - injection E as <-. exists []. rewrite app_nil_r. repeat split. intros e [].
  - destruct (expect _) as [i|] in E; [|discriminate]. cbn [rbind] in E.
    destruct (nth_error rays i) as [r|] eqn:Er; [|discriminate]. cbn [expect rbind] in E.
    apply IH in E as (add & -> & L & H). exists (r :: add). rewrite <- app_assoc. cbn [app length]. repeat split; [congruence|].
    intros e [<-|K]; [eapply nth_error_In; eauto|auto].
Qed.
Lemma in_linspace : forall a b n x, In x (linspace a b (n + 1)) -> exists k, (k <= n)%nat /\ ((1 <= n)%nat -> x = a + (b - a) / INR n * INR k).
Proof.
  intros a b n x H. unfold linspace in H. apply in_map_iff in H as (k & <- & K). apply in_seq in K. exists k. split; [lia|].
  intros N. replace (Nat.ltb 1 (n + 1)) with true by (symmetry; apply Nat.ltb_lt; lia).
  replace (n + 1 - 1)%nat with n by lia. reflexivity.
Qed.
Lemma firstn_linspace : forall a b n x, In x (firstn n (linspace a b (n + 1))) -> exists k, (k < n)%nat /\ x = a + (b - a) / INR n * INR k.
Proof.
  intros a b n x H. unfold linspace in H. rewrite firstn_map in H. apply in_map_iff in H as (k & <- & K).
  assert (Ln : (k < n)%nat).
  { replace (seq 0 (n + 1)) with (seq 0 n ++ seq n 1) in K by (rewrite <- seq_app; f_equal; lia).
    rewrite firstn_app, seq_length, Nat.sub_diag, firstn_O, app_nil_r, firstn_all2 in K by (rewrite seq_length; lia). apply in_seq in K. lia. }
  exists k. split; [exact Ln|]. replace (Nat.ltb 1 (n + 1)) with true by (symmetry; apply Nat.ltb_lt; lia).
  replace (n + 1 - 1)%nat with n by lia. reflexivity.
Qed.
Lemma square_sides : forall b : rrect, x_min (inflate_to_square b) = (x_min b + x_max b) / 2 - Rmax (x_max b - x_min b) (y_max b - y_min b) / 2 /\
  r_width (inflate_to_square b) = Rmax (x_max b - x_min b) (y_max b - y_min b) /\
  r_height (inflate_to_square b) = Rmax (x_max b - x_min b) (y_max b - y_min b).
Proof.
  intros b. unfold inflate_to_square, r_width, r_height, f2. cbn [flt fsub fadd fdiv f0 f1 RNum RNumT].
  rdestr (y_max b - y_min b) (x_max b - x_min b); cbn [x_min x_max y_min y_max].
  - rewrite Rmax_left by lra. repeat split; lra.
  - rewrite Rmax_right by lra. rdestr (x_max b - x_min b) (y_max b - y_min b); cbn [x_min x_max y_min y_max]; repeat split; lra.
Qed.
Lemma turn_shift : forall x a p, tr_point (t_rotate (transl_m x 0) a) p = turned a (Pt (px p + x) (py p)).
Proof.
  intros x a p. unfold tr_point, t_rotate, dot_prod, rot_m, transl_m, turned.
  cbn [m00 m01 m02 m10 m11 m12 m20 m21 m22 px py fadd fmul fneg f0 f1 RNum RNumT fcos fsin RTrig]. apply pt_ext; cbn [px py]; lra.
Qed.
Definition base_ray (s : poly R) : redge :=
  let h := r_height (inflate_to_square (p_bbox s)) in
  Ed (Pt (px (p_centroid s)) (py (p_centroid s) - 2 * h)) (Pt (px (p_centroid s)) (py (p_centroid s) + 2 * h)).
Lemma in_rays : forall pi s nr na ray,
  In ray (map (fun t => tr_edge t (base_ray s)) (ray_transformations pi (inflate_to_square (p_bbox s)) nr na)) ->
  exists k i, (k < na)%nat /\ (i < nr)%nat /\ ray = pier_ray pi na nr s k i.
Proof.
  intros pi s nr na ray H. apply in_map_iff in H as (t & <- & Ht). unfold ray_transformations in Ht.
  apply in_flat_map in Ht as (a & Ha & Ht). apply in_map_iff in Ht as (t' & <- & Ht). apply in_map_iff in Ht as (i & <- & Hi).
  apply in_seq in Hi. apply firstn_linspace in Ha as (k & Hk & ->). exists k, i. split; [exact Hk|]. split; [lia|].
  destruct (square_sides (p_bbox s)) as (E1 & E2 & E3).
  assert (N0 : INR na <> 0) by (apply not_0_INR; lia). assert (M0 : INR nr <> 0) by (apply not_0_INR; lia).
  unfold tr_edge, base_ray, pier_ray. cbn [es ee]. cbn zeta.
  rewrite E3, E2, E1. cbn [fadd fmul fdiv fofN f0 RNum RNumT].
  match goal with |- context [transl_m ?x ?y] => pose proof (turn_shift x) as TS end.
  f_equal.
  - etransitivity; [apply TS|]. cbn [px py]. f_equal; [field; assumption|]. f_equal. field. assumption.
  - etransitivity; [apply TS|]. cbn [px py]. f_equal; [field; assumption|]. f_equal. field. assumption.
Qed.
Lemma rmapM_concat : forall {A B} (f : A -> res (list B)) l out x, rmapM f l = Ok out -> In x (concat out) ->
  exists a b, In a l /\ f a = Ok b /\ In x b.
Proof.
  intros A B f l. induction l as [|a l IH]; intros out x E H; cbn [rmapM] in E.
  - injection E as <-. destruct H.
  - destruct (f a) as [b|] eqn:Fa; [|discriminate]. cbn [rbind] in E. destruct (rmapM f l) as [r|]; [|discriminate]. cbn [rbind] in E.
    injection E as <-. cbn [concat] in H. apply in_app_iff in H. destruct H as [H|H].
    + exists a, b. split; [left; reflexivity|auto].
    + destruct (IH r x eq_refl H) as (a' & b' & I & F & K). exists a', b'. split; [right; exact I|auto].
Qed.
Lemma piers_inv : forall cfg s n poles ps, generate_piers cfg s n poles = Ok ps -> length ps = n /\
  forall e, In e ps -> exists k i segs, (k < pc_angles cfg)%nat /\ (i < pc_rays cfg)%nat /\
    clip (pc_trim cfg) s (pier_ray (pc_pi cfg) (pc_angles cfg) (pc_rays cfg) s k i) = Ok segs /\ In e segs.
Proof.
  intros cfg s n poles ps E. destruct n as [|n].
  - injection E as <-. split; [reflexivity|]. intros e [].
  - unfold generate_piers in E. unfold edge_new in E. destruct (pt_eq _ _) in E; [discriminate|]. cbn [rbind] in E.
    destruct (rmapM _ _) as [cl|] eqn:Ec in E; [|discriminate]. cbn [rbind] in E.
    destruct (unrepresented_grid _ _ _ _) as [g|] in E; [|discriminate]. cbn [rbind] in E.
    apply select_ok in E as (add & -> & L & H). cbn [app] in *. split; [exact L|].
    intros e He. apply H in He. eapply rmapM_concat in He; [|exact Ec]. destruct He as (ray & b & Ir & Fc & Ib).
    apply (in_rays (pc_pi cfg) s (pc_rays cfg) (pc_angles cfg)) in Ir as (k & i & Hk & Hi & ->). exists k, i, b. auto.
Qed.
Theorem piers_general : forall cfg s n poles ps, sound_poly s -> 0 <= pc_trim cfg <= 1 ->
  (forall k i, (k < pc_angles cfg)%nat -> (i < pc_rays cfg)%nat ->
     ray_general (p_pts s) (pier_ray (pc_pi cfg) (pc_angles cfg) (pc_rays cfg) s k i)) ->
  generate_piers cfg s n poles = Ok ps -> length ps = n /\ forall e, In e ps -> seg_inside (p_pts s) e.
Proof.
  intros cfg s n poles ps So Ht G E. destruct (piers_inv _ _ _ _ _ E) as (L & H). split; [exact L|].
  intros e He. destruct (H e He) as (k & i & segs & Hk & Hi & C & I). exact (clip_inside _ _ _ _ _ So Ht (G k i Hk Hi) C I).
Qed.
Theorem piers_convex : forall cfg s n poles ps, sound_poly s -> 0 <= pc_trim cfg <= 1 -> convex_shape (p_pts s) ->
  generate_piers cfg s n poles = Ok ps -> length ps = n /\ forall e, In e ps -> seg_inside (p_pts s) e.
Proof.
  intros cfg s n poles ps So Ht G E. destruct (piers_inv _ _ _ _ _ E) as (L & H). split; [exact L|].
  intros e He. destruct (H e He) as (k & i & segs & Hk & Hi & C & I). exact (clip_convex _ _ _ _ _ So Ht G C I).
Qed.
(** the surrogate as a whole *)
Lemma surrogate_parts : forall cfg sc s s', made s -> generate_surrogate cfg sc s = Ok s' ->
  exists u, p_surr s' = Some u /\ p_pts s' = p_pts s /\ generate_piers cfg s (sc_nff_piers sc) (firstn (s_nff u) (s_poles u)) = Ok (s_piers u) /\
    (s_nff u <= length (s_poles u))%nat /\ forall k, In k (s_poles u) -> good_pole (p_pts s) [] k.
Proof.
  intros cfg sc s s' M E. destruct (surrogate_poles cfg sc s s' M E) as (_ & Ep & _ & _ & _ & u & Eu & _ & _ & En & G).
  exists u. split; [exact Eu|]. split; [exact Ep|]. split; [|split; [rewrite En; apply Nat.le_min_r|exact G]].
  unfold generate_surrogate in E. destruct (surrogate_new cfg sc s) as [v|] eqn:U; [|discriminate]. cbn [rbind] in E. injection E as <-.
  cbn [p_surr] in Eu. injection Eu as ->. unfold surrogate_new in U.
  destruct (convex_hull_indices _) as [hull|]; [|discriminate]. cbn [rbind] in U.
  destruct (rmapM _ hull) as [hp|]; [|discriminate]. cbn [rbind] in U.
  destruct (poly_new hp) as [hs|]; [|discriminate]. cbn [rbind] in U.
  destruct (additional_poles _ _ _ _) as [add|]; [|discriminate]. cbn [rbind] in U.
  destruct (bounding_circle _) as [bc|]; [|discriminate]. cbn [rbind] in U.
  destruct (generate_piers _ _ _ _) as [ps|] eqn:P in U; [|discriminate]. cbn [rbind] in U. injection U as <-. exact P.
Qed.
Theorem surrogate_general : forall cfg sc s s', made s -> 0 <= pc_trim cfg <= 1 ->
  convex_shape (p_pts s) \/ sc_nff_piers sc = 0%nat \/ (forall k i, (k < pc_angles cfg)%nat -> (i < pc_rays cfg)%nat ->
     ray_general (p_pts s) (pier_ray (pc_pi cfg) (pc_angles cfg) (pc_rays cfg) s k i)) ->
  generate_surrogate cfg sc s = Ok s' -> exists u, p_surr s' = Some u /\ surrogate_inside s' u.
Proof.
  intros cfg sc s s' M Ht G E. destruct (surrogate_parts cfg sc s s' M E) as (u & Eu & Ep & Eg & Ln & Gp).
  exists u. split; [exact Eu|]. destruct (made_sound s M) as (So & _).
  split; [exact Ln|]. rewrite Ep. split.
  - intros k K. assert (K' : In k (s_poles u)) by (rewrite <- (firstn_skipn (s_nff u)); apply in_or_app; left; exact K).
    specialize (Gp k K'). split; [pose proof (gp_radius _ _ _ Gp); lra|exact (gp_inside _ _ _ Gp)].
  - destruct G as [G|[G|G]].
    + apply (piers_convex _ _ _ _ _ So Ht G Eg).
    + rewrite G in Eg. injection Eg as <-. intros e [].
    + apply (piers_general _ _ _ _ _ So Ht G Eg).
Qed.
