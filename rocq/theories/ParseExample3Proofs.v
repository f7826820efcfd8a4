(** A file with a polygon that is simplified when it is read. *)
From Coq Require Import List Bool Arith Lia.
From Verif Require Import Base Num GeoModel HazardModel QTModel TransfModel PolyModel HpgModel CdeModel LayoutModel ProblemModel ParserModel SimplModel LbfModel IoModel ParseModel
  GeoSpec CdeSpec PlaceSpec ShapeSpec HpgSpec SimplSpec SimpleSpec LbfSpec IoSpec ParseSpec BaseProofs Instances HullProofs PipProofs NormProofs ConstructProofs SquareProofs RectPolyProofs CombProofs NoMaxProofs SimplExampleProofs SimpleExampleProofs
  LbfExampleProofs LbfExample2Proofs ParsePierProofs ParseExampleProofs.
From Coq Require Import Reals Lra.
From Verif Require Import GeoModel HazardModel QTModel TransfModel HpgModel CdeModel CdeSpec GeoSpec PlaceSpec HpgSpec ShapeSpec SimplSpec LbfModel LbfSpec IoModel IoSpec ParseModel ParseSpec.
Import ListNotations.
Local Open Scope R_scope.
#[local] Existing Instance RTrig.
#[local] Opaque next_pole MAX_POI_TREE_DEPTH.

Section H.
  #[local] Existing Instance RNum.
  Lemma roof_hull : convex_hull roof = roof.
  Proof.
    unfold convex_hull.
    assert (S : sort_by (@px R) roof = [Pt 0 0; Pt 4 4; Pt 8 0]).
    { unfold sort_by, roof. cbn [fold_left insert_by px flt RNum RNumT]. rcmp. reflexivity. }
    rewrite S.
    assert (L : half_hull [Pt 0 0; Pt 4 4; Pt 8 0] = [Pt 8 0; Pt 0 0]).
    { unfold half_hull. cbn [fold_left]. rgrow. reflexivity. }
    assert (U : half_hull (rev [Pt 0 0; Pt 4 4; Pt 8 0]) = [Pt 0 0; Pt 4 4; Pt 8 0]).
    { unfold half_hull. cbn [rev app fold_left]. rgrow. reflexivity. }
    rewrite L, U. reflexivity.
  Qed.
  Lemma roof_indices : convex_hull_indices roof = Ok [0; 1; 2]%nat.
  Proof.
    unfold convex_hull_indices. rewrite roof_hull. unfold roof. cbn [rmapM position].
    repeat match goal with |- context [pt_eq ?p ?p] => replace (pt_eq p p) with true by (symmetry; apply pt_eq_ok; reflexivity) end.
    repeat match goal with |- context [pt_eq ?p ?q] => rewrite (pt_eq_no p q) by (intros E; apply (f_equal px) in E; cbn [px] in E; lra) end.
    reflexivity.
  Qed.
  Lemma roof_surrogate : forall cfg goal nff s, p_pts s = roof -> exists s', generate_surrogate cfg (SC goal 1 nff 0) s = Ok s'.
  Proof.
    intros cfg goal nff s Ep. unfold generate_surrogate, surrogate_new. cbn [sc_max_poles sc_nff_poles sc_nff_piers sc_goal].
    destruct (roof_new roof 4) as (h & Eh & _); [auto|].
    assert (Ei : convex_hull_indices (p_pts s) = Ok [0; 1; 2]%nat) by (rewrite Ep; exact roof_indices).
    assert (K : rmapM (fun i => expect (nth_error (p_pts s) i)) [0; 1; 2]%nat = Ok roof) by (rewrite Ep; reflexivity).
    rewrite Ei. cbn [rbind]. rewrite K. cbn [rbind]. rewrite Eh. cbn [rbind].
    unfold additional_poles. cbn [Nat.sub more_poles rbind tl length sort_poles]. unfold bounding_circle at 1. cbn [rfold rbind].
    unfold generate_piers at 1. cbn [rbind]. eauto.
  Qed.
End H.
Definition jtrapeze : list (R * R) := [(0, 0); (8, 0); (5, 3); (3, 3); (0, 0)].
Definition slack_parser : parser R := Parser (Some (1 / 10)) (Cfg 3 100) release_cfg (SC (9 / 10) 1 1 0) false.
Definition slack_items : list (jitem R) := [JI 3 (Some [0; 90]) (JSimple jtrapeze) None; JI 2 None (JRect 1 1) (Some 4%nat)].
Definition slack_bins : list (jbin R) := [JB 7 (Some 2%nat) (JRect 20 12) []].
Lemma reqb_eq : forall a b, a = b -> Reqb a b = true.
Proof. intros a b E. unfold Reqb. destruct (Req_EM_T a b); [reflexivity|contradiction]. Qed.
Lemma trapeze_read : vertices jtrapeze = trapeze.
Proof. unfold vertices, jtrapeze. cbn [last]. unfold same_pair. cbn [fst snd]. rewrite !reqb_eq by reflexivity. reflexivity. Qed.
Section M.
  Variable M : R.
  Local Notation NM := (RNumT Reqb M).
  #[local] Existing Instance REx.
  #[local] Existing Instance DtEq.
  #[local] Existing Instance LinSearch.
  Lemma roof_made : exists s, convert_poly (N := NM) slack_parser Inflate jtrapeze = Ok s /\ p_pts s = roof.
  Proof.
    destruct trapeze_simplified as (s & s' & E & H & _ & P & _). exists s'. split; [|exact P].
    unfold convert_poly, json_points, jtrapeze. cbn [nth_error expect rbind length Nat.pred fst snd feq RNumT].
    rewrite !reqb_eq by reflexivity. cbn [andb firstn map fst snd rbind pr_simpl slack_parser]. rewrite poly_new_M.
    change [Pt 0 0; Pt 8 0; Pt 5 3; Pt 3 3] with trapeze. rewrite E. cbn [rbind]. rewrite simplify_M. exact H.
  Qed.
  Lemma slack_first : forall id, exists it, parse_item (N := NM) slack_parser (JI 3 (Some [0; 90]) (JSimple jtrapeze) None) id = Ok (it, t_empty (N := NM), 3%nat) /\ it_id it = id.
  Proof.
    intros id. unfold parse_item. cbn [ji_shape ji_orient ji_quality ji_demand solid_shape]. destruct roof_made as (s & E & P). rewrite E. cbn [rbind].
    unfold item_new. cbn [pr_surr pr_piers slack_parser]. rewrite surrogate_M. destruct (roof_surrogate release_cfg (9 / 10) 1 s P) as (s' & E'). rewrite E'. cbn [rbind pr_center slack_parser].
    eexists. split; [reflexivity|reflexivity].
  Qed.
  Lemma slack_run : forall umax, exists inst pres, parse (N := NM) umax slack_parser (JIn slack_items (Some slack_bins) None) 0 = Ok (IBP inst, pres).
  Proof.
    intros umax. unfold parse. cbn [jn_items jn_bins jn_strip slack_items length seq combine rmapM fst snd].
    destruct (slack_first 0) as (it & E & Ei). rewrite E. cbn [rbind].
    destruct (rect_item M slack_parser (9 / 10) 1 1 1 2 None (Some 4%nat) 1 ltac:(lra) ltac:(lra) eq_refl) as (it2 & pre & E2 & Ei2). rewrite E2. cbn [rbind].
    destruct (box_bins M LinSearch_ok umax slack_parser slack_bins 0 0) as (bins & Eb & Ez); [discriminate| |].
    { repeat constructor. cbn [jb_shape]. exists 20, 12. split; [reflexivity|]. lra. }
    rewrite Eb. cbn [rbind]. unfold bpinst_new. cbn [map fst snd]. rewrite Ei, Ei2, Ez. cbn. eauto.
  Qed.
  Lemma slack_strip : forall umax, exists inst pres, parse (N := NM) umax slack_parser (JIn slack_items None (Some 10)) 0 = Ok (ISP inst, pres).
  Proof.
    intros umax. unfold parse. cbn [jn_items jn_bins jn_strip slack_items length seq combine rmapM fst snd].
    destruct (slack_first 0) as (it & E & Ei). rewrite E. cbn [rbind].
    destruct (rect_item M slack_parser (9 / 10) 1 1 1 2 None (Some 4%nat) 1 ltac:(lra) ltac:(lra) eq_refl) as (it2 & pre & E2 & Ei2). rewrite E2. cbn [rbind].
    unfold spinst_new. cbn [map fst snd]. rewrite Ei, Ei2. cbn. eauto.
  Qed.
End M.
Lemma slack_simple : simple_items (map file_item slack_items) /\ simple_bins (map file_bin slack_bins).
Proof.
  split.
  - intros f [<-|[<-|[]]]; cbn [fi_outline file_item ji_shape outline]; [rewrite trapeze_read; exact trapeze_simple|]. simple_poly.
  - intros f [<-|[]]. cbn [fb_outer fb_holes fb_zones file_bin jb_shape jb_zones outline cutouts map]. split; [|split; intros ? []]. simple_poly.
Qed.
