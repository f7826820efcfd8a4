(** The items that are drawn can be built: moved back they are, up to the old surrogate, the
    polygons the surrogates of which were generated first. *)
From Coq Require Import List Bool Arith Lia Permutation.
From Verif Require Import Base Num GeoModel HazardModel QTModel TransfModel HpgModel CdeModel CdeSpec
  PolyModel ParserModel SimplModel SlotMapModel LayoutModel ProblemModel ProblemSpec LbfModel IoModel ParseModel SvgModel
  BaseProofs QTProofs CdeProofs Instances ParityProofs PipProofs NormProofs XformProofs ConstructProofs RigidProofs RegionProofs RectPolyProofs NoMaxProofs LayoutProofs ProblemProofs ProblemOpsProofs
  IoProofs IoThmProofs ParseProofs SvgProofs.
From Coq Require Import Reals Lra.
From Verif Require Import GeoModel HazardModel QTModel TransfModel HpgModel CdeModel CdeSpec GeoSpec PlaceSpec HpgSpec ShapeSpec SimplSpec LbfModel LbfSpec IoModel IoSpec ParseModel ParseSpec SvgModel SvgSpec.
Import ListNotations.

Section Any.
  Context {F : Type} {N : Num F} {T : Trig F}.
  Variables (a : list (point F)) (b : rect F) (c d : F) (e : circle F) (u v : option (surrogate F)).
  Local Notation s := (Poly a b c d e u).
  Local Notation s' := (Poly a b c d e v).
  Lemma levels_same : forall lvl poles best q, poi_levels s poles lvl best q = poi_levels s' poles lvl best q.
  Proof.
    induction lvl as [|lvl IH]; intros poles best q; cbn [poi_levels]; [reflexivity|].
    change (poi_visit s poles (S lvl)) with (poi_visit s' poles (S lvl)). destruct (rfold _ q _) as [[b' nx]|]; cbn [rbind]; [apply IH|reflexivity].
  Qed.
  Lemma pole_same : forall depth poles, next_pole depth s poles = next_pole depth s' poles.
  Proof.
    intros depth poles. unfold next_pole. change (pnode_new s poles (inflate_to_square (p_bbox s))) with (pnode_new s' poles (inflate_to_square (p_bbox s'))).
    destruct (pnode_new s' _ _) as [root|]; cbn [rbind]; [|reflexivity]. rewrite levels_same. reflexivity.
  Qed.
  Lemma poles_same : forall n pi goal poles total, more_poles n pi goal s poles total = more_poles n pi goal s' poles total.
  Proof.
    induction n as [|n IH]; intros pi goal poles total; cbn [more_poles]; [reflexivity|]. unfold generate_next_pole. rewrite pole_same.
    destruct (next_pole _ s' poles) as [k|]; cbn [rbind]; [|reflexivity]. destruct (flt _ _); [reflexivity|apply IH].
  Qed.
  Lemma surr_same : forall cfg sc, surrogate_new cfg sc s = surrogate_new cfg sc s'.
  Proof.
    intros cfg sc. unfold surrogate_new, additional_poles. cbn [p_pts p_poi p_area]. rewrite poles_same.
    change (generate_piers cfg s) with (generate_piers cfg s'). reflexivity.
  Qed.
End Any.

Local Open Scope R_scope.
#[local] Existing Instance RTrig.
Section It.
  Variable M : R.
  Context {X : Extra R}.
  #[local] Instance NI : Num R := RNumT Reqb M.
  Variable pr : parser R.
  Hypothesis Ht : tol_ok (pr_simpl pr).
  (** the shape of an item, moved back *)
  Lemma item_back : forall (t pre : transf R) (s s2 : poly R), motion t -> motion pre -> made s -> (forall p, tr_point (N := RNum) (t_inverse (N := RNum) pre) (tr_point (N := RNum) t p) = p) ->
    p_pts s2 = map (tr_point (N := RNum) t) (p_pts s) -> p_area s2 = p_area s -> p_diam s2 = p_diam s -> p_poi s2 = tr_circle (N := RNum) t (p_poi s) ->
    let s3 := tr_poly (N := RNum) (t_inverse (N := RNum) pre) s2 in
    p_pts s3 = p_pts s /\ p_bbox s3 = p_bbox s /\ p_area s3 = p_area s /\ p_diam s3 = p_diam s /\ p_poi s3 = p_poi s.
  Proof.
    intros t pre s s2 Mo Mo' Ma Bk E1 E2 E3 E4 s3. unfold s3. cbn [tr_poly p_pts p_bbox p_area p_diam p_poi]. rewrite E1, E2, E3, E4.
    assert (Em : map (tr_point (N := RNum) (t_inverse (N := RNum) pre)) (map (tr_point (N := RNum) t) (p_pts s)) = p_pts s).
    { rewrite map_map. rewrite <- (map_id (p_pts s)) at 2. apply map_ext. exact Bk. }
    rewrite Em. split; [reflexivity|]. split; [|split; [reflexivity|split; [reflexivity|]]].
    - apply (box_unique _ _ (p_pts s)); [|apply Ma]. apply bbox_ok. destruct (made_sound _ Ma) as (_ & E). exact E.
    - destruct (p_poi s) as [cc r]. unfold tr_circle. cbn [ccen crad]. rewrite Bk. reflexivity.
  Qed.
  Theorem item_total : forall j id it pre d, parse_item pr j id = Ok (it, pre, d) ->
    exists it' u, (x <- pretransform_item pr (it, pre) (t_inverse pre) ;; Ok (fst x)) = Ok it' /\ it_id it' = it_id it /\ it_quality it' = it_quality it /\ p_pts (it_shape it') <> [] /\
      p_surr (it_shape it') = Some u /\ s_poles u <> [].
  Proof.
    intros j id it pre d H. unfold parse_item in H. apply rbind_ok in H as (s & Es & H). destruct (solid_inv M pr Ht _ _ _ Es) as (Md & _ & Sk).
    apply rbind_ok in H as (base & Eb & H). unfold item_new in Eb. apply rbind_ok in Eb as (s' & Es' & Eb). injection Eb as <-. cbn [fst] in H.
    change NI with (RNumT Reqb M) in Es'. rewrite surrogate_M in Es'. destruct (surrogate_poles _ _ _ _ Md Es') as (Md' & _).
    assert (K : forall s2 t, motion t -> motion pre -> (forall p, tr_point (N := RNum) (t_inverse (N := RNum) pre) (tr_point (N := RNum) t p) = p) ->
      p_pts s2 = map (tr_point (N := RNum) t) (p_pts s') -> p_area s2 = p_area s' -> p_diam s2 = p_diam s' -> p_poi s2 = tr_circle (N := RNum) t (p_poi s') -> it_shape it = s2 ->
      exists it' u, (x <- pretransform_item pr (it, pre) (t_inverse pre) ;; Ok (fst x)) = Ok it' /\ it_id it' = it_id it /\ it_quality it' = it_quality it /\ p_pts (it_shape it') <> [] /\
        p_surr (it_shape it') = Some u /\ s_poles u <> []).
    { intros s2 t Mo Mo' Bk E1 E2 E3 E4 E5. destruct (item_back t pre s' s2 Mo Mo' Md' Bk E1 E2 E3 E4) as (A1 & A2 & A3 & A4 & A5).
      unfold pretransform_item, item_new. rewrite E5. set (s3 := tr_poly (t_inverse pre) s2).
      change (tr_poly (N := RNum) (t_inverse (N := RNum) pre) s2) with s3 in *.
      unfold generate_surrogate in Es'. apply rbind_ok in Es' as (u & Eu & Es'). injection Es' as Es'. rewrite <- Es' in *. cbn [p_pts p_bbox p_area p_diam p_poi] in *.
      change NI with (RNumT Reqb M). rewrite surrogate_M. unfold generate_surrogate. destruct s3 as [a3 b3 c3 d3 e3 u3]. cbn [p_pts p_bbox p_area p_diam p_poi] in *. subst a3 b3 c3 d3 e3.
      destruct s as [a0 b0 c0 d0 e0 u0]. cbn [p_pts p_bbox p_area p_diam p_poi] in *. rewrite (surr_same a0 b0 c0 d0 e0 u3 u0), Eu. cbn [rbind fst].
      exists (It (it_id it) (Poly a0 b0 c0 d0 e0 (Some u)) (it_rot it) (it_quality it)), u. cbn [it_id it_quality it_shape p_pts p_surr].
      split; [reflexivity|]. split; [reflexivity|]. split; [reflexivity|]. split; [exact (proj2 (made_sound _ Md))|]. split; [reflexivity|].
      unfold surrogate_new in Eu. do 4 apply rbind_ok in Eu as (? & _ & Eu). apply rbind_ok in Eu as (? & _ & Eu). apply rbind_ok in Eu as (? & _ & Eu). injection Eu as <-. discriminate. }
    apply rbind_ok in H as (x & Ex & H). injection H as -> _. destruct (pr_center pr).
    - unfold pretransform_item, item_new in Ex. apply rbind_ok in Ex as (s2 & Es2 & Ex). injection Ex as Ei Ep2.
      change NI with (RNumT Reqb M) in Es2. rewrite surrogate_M in Es2. cbn [it_shape it_id it_rot it_quality] in *.
      set (c := centering_transformation (N := RNum) s') in *.
      change (generate_surrogate (N := RNum) (pr_piers pr) (pr_surr pr) (tr_poly (N := RNum) (compose (N := RNum) c) s') = Ok s2) in Es2.
      unfold generate_surrogate in Es2. apply rbind_ok in Es2 as (u2 & _ & Es2). injection Es2 as Es2.
      pose proof (shift_once (dt_tx c) (dt_ty c)) as (So1 & So2). cbn zeta in So1, So2. change (DT 0 (dt_tx c) (dt_ty c)) with c in So1, So2.
      assert (Ep3 : pre = t_transform (N := RNum) (t_empty (N := RNum)) (compose (N := RNum) c)) by (rewrite <- Ep2; reflexivity).
      apply (K s2 (compose (N := RNum) c)); try (rewrite <- Es2; reflexivity).
      + apply rt_affine.
      + rewrite Ep3. exact So1.
      + intros p. rewrite Ep3. change (compose (N := RNum) c) with (compose (N := RNum) (DT 0 (dt_tx c) (dt_ty c))). rewrite shifted_tr. rewrite <- So2. apply inv_left. exact So1.
      + rewrite <- Ei. reflexivity.
    - injection Ex as Ei Ep2. apply (K s' (t_empty (N := RNum))).
      + exact empty_affine.
      + rewrite <- Ep2. exact empty_affine.
      + intros p. rewrite <- Ep2. apply inv_left. exact empty_affine.
      + rewrite <- (map_id (p_pts s')) at 1. apply map_ext. intros p. symmetry. apply tr_empty.
      + reflexivity.
      + reflexivity.
      + destruct (p_poi s') as [cc r]. unfold tr_circle. cbn [ccen crad]. rewrite tr_empty. reflexivity.
      + rewrite <- Ei. reflexivity.
  Qed.
End It.
