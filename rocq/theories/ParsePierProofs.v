(** C61: the piers of an item depend on where its coordinates lie; rectangles as items. *)
From Coq Require Import List Bool Arith Lia.
From Verif Require Import Base Num GeoModel HazardModel QTModel TransfModel PolyModel HpgModel CdeModel LayoutModel ProblemModel ParserModel SimplModel LbfModel IoModel ParseModel
  GeoSpec CdeSpec PlaceSpec ShapeSpec HpgSpec SimplSpec LbfSpec IoSpec ParseSpec
  BaseProofs QTProofs ParityProofs PipProofs RigidProofs XformProofs NormProofs PoleProofs ConstructProofs GeoPrimProofs SquareProofs CombProofs CentreProofs RectPolyProofs
  FitProofs NoMaxProofs ParseProofs RectSurrProofs.
From Coq Require Import Reals Lra.
From Verif Require Import GeoModel HazardModel QTModel TransfModel HpgModel CdeModel CdeSpec GeoSpec PlaceSpec HpgSpec ShapeSpec SimplSpec LbfModel LbfSpec IoModel IoSpec ParseModel ParseSpec.
Import ListNotations.
Local Open Scope R_scope.
#[local] Existing Instance RTrig.
#[local] Opaque next_pole MAX_POI_TREE_DEPTH.
Definition jsquare (c : R) : list (R * R) := [(c - 2, -2); (c + 2, -2); (c + 2, 2); (c - 2, 2)].
Lemma rpts_box : forall a b c d, a < c -> b < d -> smallest_box (Rc a b c d) (rpts a b c d).
Proof.
  intros a b c d X Y. unfold smallest_box, in_rect, rpts. cbn [x_min x_max y_min y_max]. split; [|split; [|split; [|split]]].
  - intros p H. cbn [In] in H. repeat (destruct H as [<-|H]; [cbn; lra|]). destruct H.
  - exists (Pt a b). cbn; tauto.
  - exists (Pt c b). cbn; tauto.
  - exists (Pt a b). cbn; tauto.
  - exists (Pt a d). cbn; tauto.
Qed.
Lemma made_box : forall a b c d s, a < c -> b < d -> made s -> p_pts s = rpts a b c d -> p_bbox s = Rc a b c d.
Proof.
  intros a b c d s X Y Md P. apply (box_unique _ _ (p_pts s)); [apply (nm_box _ (md_norm _ Md))|]. rewrite P. apply rpts_box; assumption.
Qed.
Lemma made_sq : forall c s, made s -> p_pts s = rpts (c - 2) (-2) (c + 2) 2 -> is_sq c s.
Proof.
  intros c s Md P. split; [exact P| |apply made_box; auto; lra].
  rewrite (nm_area _ (md_norm _ Md)), P. unfold shoelace, total, rpts, ring. cbn [path_edges fold_right es ee px py]. lra.
Qed.
Section Par.
  Variable M : R.
  Local Notation NM := (RNumT Reqb M).

  Context {X : Extra R}.
  Variable pr : parser R.
  Lemma jsquare_new : forall c, exists s, convert_poly (N := NM) (Parser None (pr_cfg pr) (pr_piers pr) (pr_surr pr) (pr_center pr)) Inflate (jsquare c) = Ok s /\ made s /\ p_pts s = rpts (c - 2) (-2) (c + 2) 2.
  Proof.
    intros c. destruct (rpts_new (c - 2) (-2) (c + 2) 2) as (s & E & P); [lra|lra|].
    exists s. split; [|split; [exact (proj1 (new_made _ _ E))|exact P]]. unfold convert_poly, json_points, jsquare. cbn [nth_error expect rbind length Nat.pred fst snd].
    replace (Reqb (c - 2) (c - 2) && Reqb (-2) 2) with false.
    2: { symmetry. apply andb_false_intro2. unfold Reqb. destruct (Req_EM_T _ _); [lra|reflexivity]. }
    cbn [firstn map fst snd rbind pr_simpl]. change (feq _ _ && feq _ _) with (Reqb (c - 2) (c - 2) && Reqb (-2) 2).
    replace (Reqb (c - 2) (c - 2) && Reqb (-2) 2) with false.
    2: { symmetry. apply andb_false_intro2. unfold Reqb. destruct (Req_EM_T _ _); [lra|reflexivity]. }
    cbn [firstn map fst snd rbind pr_simpl]. rewrite poly_new_M. unfold rpts in E. rewrite E. reflexivity.
  Qed.
  Lemma shifted_out : forall goal nff n d o q id, pr_simpl pr = None -> pr_surr pr = SC goal 1 nff (S n) ->
    parse_item (N := NM) pr (JI d o (JSimple (jsquare 12)) q) id = Panic.
  Proof.
    intros goal nff n d o q id Hs Hq. unfold parse_item. cbn [ji_shape ji_orient ji_quality solid_shape]. destruct (jsquare_new 12) as (s & E & Md & P).
    unfold convert_poly in *. rewrite Hs. cbn [pr_simpl] in E. rewrite E. cbn [rbind]. unfold item_new at 1. rewrite surrogate_M, Hq, (rect_surrogate (12 - 2) (-2) (12 + 2) 2 ltac:(lra) ltac:(lra) _ _ _ _ _ P).
    rewrite sq_missed; [reflexivity|apply made_sq; assumption].
  Qed.
  Lemma centred_in : forall goal nff n d o q id, pr_simpl pr = None -> pr_surr pr = SC goal 1 nff n ->
    (2 <= pc_rays (pr_piers pr))%nat -> (1 <= pc_angles (pr_piers pr))%nat ->
    exists x, parse_item (N := NM) pr (JI d o (JSimple (jsquare 0)) q) id = Ok x.
  Proof.
    intros goal nff n d o q id Hs Hq Hr Ha. unfold parse_item. cbn [ji_shape ji_orient ji_quality ji_demand solid_shape]. destruct (jsquare_new 0) as (s & E & Md & P).
    unfold convert_poly in *. rewrite Hs. cbn [pr_simpl] in E. rewrite E. cbn [rbind].
    assert (K : forall s1 r pre, made s1 -> p_pts s1 = rpts (0 - 2) (-2) (0 + 2) 2 -> exists s2, made s2 /\ p_pts s2 = p_pts s1 /\ item_new (N := NM) pr id s1 r q pre = Ok (It id s2 r q, pre)).
    { intros s1 r pre Md1 P1. unfold item_new. rewrite surrogate_M, Hq.
      destruct (generate_surrogate (N := RNum) (pr_piers pr) (SC goal 1 nff n) s1) as [s2|] eqn:Eg.
      - destruct (surrogate_poles _ _ _ _ Md1 Eg) as (Md2 & Ep2 & _). exists s2. auto.
      - exfalso. rewrite (rect_surrogate (0 - 2) (-2) (0 + 2) 2 ltac:(lra) ltac:(lra) _ _ _ _ _ P1) in Eg.
        destruct (sq_found (pr_piers pr) s1 n (firstn (Nat.min nff 1) [p_poi s1]) (made_sq _ _ Md1 P1) Hr Ha) as (ps & Eps). rewrite Eps in Eg. discriminate. }
    destruct (K s (orientations (N := NM) o) (t_empty (N := NM)) Md P) as (s2 & Md2 & P2 & E2). rewrite E2. cbn [rbind fst it_shape].
    destruct (pr_center pr); [|cbn [rbind]; eauto].
    unfold pretransform_item. cbn [it_id it_rot it_quality it_shape]. rewrite P in P2.
    assert (C : centering_transformation (N := NM) s2 = DT 0 (- 0) (- 0)).
    { unfold centering_transformation. pose proof (sq_centroid 0 s2 (made_sq _ _ Md2 P2)) as C. change (p_centroid (N := NM) s2) with (p_centroid (N := RNum) s2). rewrite C. reflexivity. }
    rewrite C. destruct (at_shift_tr (- 0) (- 0) s2 Md2) as (A & B).
    destruct (K (tr_poly (N := NM) (compose (N := NM) (DT 0 (- 0) (- 0))) s2) (orientations (N := NM) o) (t_transform (N := NM) (t_empty (N := NM)) (compose (N := NM) (DT 0 (- 0) (- 0))))) as (s3 & _ & _ & E3).
    - exact B.
    - etransitivity; [exact A|]. rewrite P2. unfold rpts. cbn [map]. unfold shifted. cbn [px py]. repeat (apply f_equal2; [apply pt_ext; cbn [px py]; lra|]). reflexivity.
    - change (Ropp 0) with (- 0) in E3. rewrite E3. cbn [rbind]. eauto.
  Qed.
  Theorem shift_refuted : forall goal nff n, pr_simpl pr = None -> pr_surr pr = SC goal 1 nff (S n) -> (2 <= pc_rays (pr_piers pr))%nat -> (1 <= pc_angles (pr_piers pr))%nat ->
    exists l dx, forall d o q id, (exists x, parse_item (N := NM) pr (JI d o (JSimple l) q) id = Ok x) /\
      parse_item (N := NM) pr (JI d o (JSimple (map (fun p => (fst p + dx, snd p)) l)) q) id = Panic.
  Proof.
    intros goal nff n Hs Hq Hr Ha. exists (jsquare 0), 12. intros d o q id. split; [exact (centred_in goal nff (S n) d o q id Hs Hq Hr Ha)|].
    replace (map _ (jsquare 0)) with (jsquare 12); [exact (shifted_out goal nff n d o q id Hs Hq)|].
    unfold jsquare. cbn [map fst snd]. repeat (apply f_equal2; [apply f_equal2; [lra|reflexivity]|]). reflexivity.
  Qed.
  (** rectangles as items, when no piers are asked for *)
  Lemma rect_item : forall goal nff w h d o q id, 0 < w -> 0 < h -> pr_surr pr = SC goal 1 nff 0 ->
    exists it pre, parse_item (N := NM) pr (JI d o (JRect w h) q) id = Ok (it, pre, d) /\ it_id it = id.
  Proof.
    intros goal nff w h d o q id Hw Hh Hq. unfold parse_item. cbn [ji_shape ji_orient ji_quality ji_demand solid_shape]. unfold rect_shape, poly_of_rect.
    rewrite poly_new_M. change (@f0 R NM) with 0. cbn [x_min x_max y_min y_max]. fold (rpts 0 0 w h). destruct (rpts_new 0 0 w h Hw Hh) as (s & E & P). rewrite E. cbn [rbind].
    assert (K : forall s1 a b r pre, made s1 -> p_pts s1 = rpts a b (a + w) (b + h) -> exists s2, made s2 /\ p_pts s2 = p_pts s1 /\ item_new (N := NM) pr id s1 r q pre = Ok (It id s2 r q, pre)).
    { intros s1 a b r pre Md1 P1. unfold item_new. rewrite surrogate_M, Hq.
      destruct (generate_surrogate (N := RNum) (pr_piers pr) (SC goal 1 nff 0) s1) as [s2|] eqn:Eg.
      - destruct (surrogate_poles _ _ _ _ Md1 Eg) as (Md2 & Ep2 & _). exists s2. auto.
      - exfalso. rewrite (rect_surrogate a b (a + w) (b + h) ltac:(lra) ltac:(lra) _ _ _ _ _ P1) in Eg. discriminate. }
    assert (P' : p_pts s = rpts 0 0 (0 + w) (0 + h)) by (rewrite P; unfold rpts; rewrite !Rplus_0_l; reflexivity).
    destruct (K s 0 0 (orientations (N := NM) o) (t_empty (N := NM)) (proj1 (new_made _ _ E)) P') as (s2 & Md2 & P2 & E2). rewrite E2. cbn [rbind fst it_shape].
    destruct (pr_center pr); [|cbn [rbind]; eauto].
    unfold pretransform_item. cbn [it_id it_rot it_quality it_shape]. rewrite P in P2.
    set (c := centering_transformation (N := RNum) s2). change (centering_transformation (N := NM) s2) with c. destruct (at_shift_tr (dt_tx c) (dt_ty c) s2 Md2) as (A & B). change (DT 0 (dt_tx c) (dt_ty c)) with c in A, B.
    destruct (K (tr_poly (N := NM) (compose (N := NM) c) s2) (dt_tx c) (dt_ty c) (orientations (N := NM) o) (t_transform (N := NM) (t_empty (N := NM)) (compose (N := NM) c))) as (s3 & _ & _ & E3).
    - exact B.
    - etransitivity; [exact A|]. rewrite P2. unfold rpts. cbn [map]. unfold shifted. cbn [px py]. repeat (apply f_equal2; [apply pt_ext; cbn [px py]; lra|]). reflexivity.
    - rewrite E3. cbn [rbind]. eauto 6.
  Qed.
End Par.
