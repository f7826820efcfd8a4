(** The surrogate of the clasp of CombProofs.v. *)
From Coq Require Import Reals List Bool Arith Lra Lia Psatz Permutation Sorted.
From Verif Require Import Base Num GeoModel HazardModel QTModel TransfModel PolyModel GeoSpec ShapeSpec PlaceSpec HpgSpec
  BaseProofs QTProofs ParityProofs GeoPrimProofs GeoRectProofs PipProofs TouchProofs RegionProofs RigidProofs
  XformProofs NormProofs HullProofs PoleProofs ConstructProofs SquareProofs CrossProofs PierProofs PierGenProofs CombProofs.
Import ListNotations.
Local Open Scope R_scope.
#[local] Existing Instance RNum.
#[local] Existing Instance RTrig.
#[local] Opaque next_pole MAX_POI_TREE_DEPTH.

Section Hull.
  Variables (a b : R).
  Local Notation P x y := (Pt (x + a) (y + b)).
  Definition hullp : list rpoint := [P 0 (-30); P 99 (-90); P 19800 (-90); P 19800 90; P 50 90].
  Lemma comb_hull : convex_hull (map (shifted a b) comb) = hullp.
  Proof.
    unfold convex_hull, comb, shifted. cbn [map px py].
    assert (S : sort_by (@px R) [P 0 (-30); P 99 (-90); P 19800 (-90); P 19800 90; P 50 90; P 50 30; P 19700 30; P 19700 (-30)] =
      [P 0 (-30); P 50 90; P 50 30; P 99 (-90); P 19700 30; P 19700 (-30); P 19800 (-90); P 19800 90]).
    { unfold sort_by. cbn [fold_left insert_by px flt RNum RNumT]. rcmp. reflexivity. }
    rewrite S.
    assert (L : half_hull [P 0 (-30); P 50 90; P 50 30; P 99 (-90); P 19700 30; P 19700 (-30); P 19800 (-90); P 19800 90] =
      [P 19800 90; P 19800 (-90); P 99 (-90); P 0 (-30)]).
    { unfold half_hull. cbn [fold_left]. rgrow. reflexivity. }
    assert (U : half_hull (rev [P 0 (-30); P 50 90; P 50 30; P 99 (-90); P 19700 30; P 19700 (-30); P 19800 (-90); P 19800 90]) =
      [P 0 (-30); P 50 90; P 19800 90]).
    { unfold half_hull. cbn [rev app fold_left]. rgrow. reflexivity. }
    rewrite L, U. reflexivity.
  Qed.
  Lemma comb_indices : convex_hull_indices (map (shifted a b) comb) = Ok [0; 1; 2; 3; 4]%nat.
  Proof.
    unfold convex_hull_indices. rewrite comb_hull. unfold hullp, comb, shifted. cbn [map px py rmapM position].
    repeat match goal with |- context [pt_eq ?p ?p] => replace (pt_eq p p) with true by (symmetry; apply pt_eq_ok; reflexivity) end.
    repeat match goal with |- context [pt_eq ?p ?q] => rewrite (pt_eq_no p q) by (intros E; injection E; intros; lra) end.
    reflexivity.
  Qed.
  Lemma hullp_new : exists h, poly_new hullp = Ok h.
  Proof.
    apply (new_works hullp (Rc (0 + a) (-90 + b) (19800 + a) (90 + b)) (P 10000 0) 60).
    - cbn; lia.
    - unfold hullp. repeat constructor; cbn [In]; intros H; repeat (destruct H as [H|H]; [injection H; intros; lra|]); exact H.
    - unfold shoelace, total, hullp, ring; cbn. lra.
    - unfold smallest_box, in_rect. cbn [x_min x_max y_min y_max]. split; [|split; [|split; [|split]]].
      + intros p H. unfold hullp in H; cbn [In] in H. repeat (destruct H as [<-|H]; [cbn; lra|]). destruct H.
      + exists (P 0 (-30)). unfold hullp; cbn; tauto.
      + exists (P 19800 90). unfold hullp; cbn; tauto.
      + exists (P 99 (-90)). unfold hullp; cbn; tauto.
      + exists (P 50 90). unfold hullp; cbn; tauto.
    - split; [|split; [|intros k []]].
      + unfold even_odd, hullp, parity, ring. cbn [path_edges fold_right]. rewrite !crosses_sign. unfold cp. cbn [px py es ee]. rcmp. reflexivity.
      + intros q (e & He & (t & Ht & Eq)). pose proof (edist_coord (P 10000 0) q) as (X & Y). cbn [px py] in X, Y.
        assert (H : px q <= 99 + a \/ 19800 + a <= px q \/ py q <= -90 + b \/ 90 + b <= py q).
        { unfold hullp, ring in He. cbn [path_edges In] in He. rewrite Eq.
          repeat (destruct He as [<-|He]; [unfold at_t; cbn; lra|]). destruct He. }
        revert X Y; unfold Rabs; repeat destruct Rcase_abs; lra.
    - replace (resolution _ _) with (resolution (Rc 0 (-90) 19800 90) MAX_POI_TREE_DEPTH).
      + pose proof comb_resolution. lra.
      + unfold resolution. cbn [x_min x_max y_min y_max].
        replace (19800 + a - (0 + a)) with (19800 - 0) by ring. replace (90 + b - (-90 + b)) with (90 - -90) by ring. reflexivity.
  Qed.
End Hull.
(** the surrogate of the centred clasp *)
Lemma clasp_surrogate : exists s0 cx cy, poly_new comb = Ok s0 /\ 0 < cx < 19800 /\ -90 < cy < 90 /\
  let s := fst (center_around_centroid s0) in p_centroid s = Pt 0 0 /\ made s /\
  forall goal nff n, exists s' u, generate_surrogate release_cfg (SC goal 1 nff n) s = Ok s' /\ p_surr s' = Some u /\
    s_nff u = Nat.min nff 1 /\ length (s_poles u) = 1%nat /\
    s_piers u = repeat (bad_pier cx cy) n /\ p_pts s' = map (tr_point (transl_m (- cx) (- cy))) comb /\ good_shape s'.
Proof.
  destruct clasp as (s0 & cx & cy & E0 & Bx & By & M & C0 & Pm & Pp & _ & G). exists s0, cx, cy. split; [exact E0|].
  split; [exact Bx|]. split; [exact By|]. cbn zeta.
  set (s := fst (center_around_centroid s0)) in *. split; [exact C0|]. split; [exact M|].
  assert (Gs : good_shape s).
  { unfold s, center_around_centroid. cbn [fst]. apply good_tr_poly; [apply affine_rigid, transl_affine|].
    apply (new_good_shape _ _ E0). destruct comb_new as (s1 & E1 & P1 & _). rewrite E1 in E0. injection E0 as <-. rewrite P1. exact comb_spikes. }
  intros goal nff n. destruct (hullp_new (- cx) (- cy)) as (h & Eh).
  unfold generate_surrogate, surrogate_new. cbn [sc_max_poles sc_nff_poles sc_nff_piers sc_goal].
  assert (Ei : convex_hull_indices (p_pts s) = Ok [0; 1; 2; 3; 4]%nat) by (rewrite Pp; apply comb_indices).
  assert (K : rmapM (fun i => expect (nth_error (p_pts s) i)) [0; 1; 2; 3; 4]%nat = Ok (hullp (- cx) (- cy))) by (rewrite Pp; reflexivity).
  rewrite Ei. cbn [rbind]. rewrite K. cbn [rbind]. rewrite Eh. cbn [rbind].
  unfold additional_poles. cbn [Nat.sub more_poles rbind tl length sort_poles]. unfold bounding_circle at 1. cbn [rfold rbind].
  rewrite G. cbn [rbind]. eexists. eexists. split; [reflexivity|]. split; [reflexivity|]. cbn [s_piers s_nff s_poles p_pts].
  split; [reflexivity|]. split; [reflexivity|]. split; [reflexivity|]. split; [exact Pm|].
  destruct Gs as [G1 G2 G3 G4 G5]. split; assumption.
Qed.
Theorem surrogate_outside : exists l s0, poly_new l = Ok s0 /\ no_spikes l /\
  let s := fst (center_around_centroid s0) in p_centroid s = Pt 0 0 /\ made s /\
  forall goal nff n, exists s' u, generate_surrogate release_cfg (SC goal 1 nff n) s = Ok s' /\ p_surr s' = Some u /\
    length (s_piers u) = n /\ forall e, In e (s_piers u) -> ~ seg_inside (p_pts s') e.
Proof.
  destruct clasp_surrogate as (s0 & cx & cy & E0 & _ & _ & C0 & M & G). exists comb, s0. split; [exact E0|]. split; [exact comb_spikes|]. cbn zeta.
  split; [exact C0|]. split; [exact M|]. intros goal nff n. destruct (G goal nff n) as (s' & u & A & B & _ & _ & Pi & Pt & _).
  exists s', u. split; [exact A|]. split; [exact B|]. rewrite Pi. split; [apply repeat_length|].
  intros e He. apply repeat_spec in He as ->. apply bad_outside. exact Pt.
Qed.
