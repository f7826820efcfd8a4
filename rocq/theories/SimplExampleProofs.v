(** Simplifying concrete polygons. *)
From Coq Require Import Reals List Bool Arith Lra Lia Psatz.
From Verif Require Import Base Num GeoModel HazardModel TransfModel PolyModel SimplModel GeoSpec ShapeSpec SimplSpec PlaceSpec
  BaseProofs ParityProofs GeoPrimProofs PipProofs NormProofs GeoRectProofs GeoRectProofs RegionProofs TouchProofs HullProofs BoundProofs PoleProofs RigidProofs ConstructProofs SquareProofs SimplProofs.
Import ListNotations.
Local Open Scope R_scope.
#[local] Existing Instance RNum.

Lemma type_lt : forall a b c, turn a b c < 0 -> corner_type_of a b c = TConcave.
Proof.
  intros a b c H. unfold corner_type_of. set (x := fsub _ _). assert (E : x = turn a b c) by reflexivity. rewrite E.
  replace (flt (turn a b c) f0) with true by (symmetry; apply Rltb_spec; exact H). reflexivity.
Qed.
Lemma type_eq : forall a b c, turn a b c = 0 -> corner_type_of a b c = TCollinear.
Proof.
  intros a b c H. unfold corner_type_of. set (x := fsub _ _). assert (E : x = turn a b c) by reflexivity. rewrite E.
  replace (flt (turn a b c) f0) with false by (symmetry; apply Rltb_nspec; cbn; lra).
  replace (feq (turn a b c) f0) with true by (symmetry; apply Reqb_spec; exact H). reflexivity.
Qed.
Lemma type_gt : forall a b c, 0 < turn a b c -> corner_type_of a b c = TConvex.
Proof.
  intros a b c H. unfold corner_type_of. set (x := fsub _ _). assert (E : x = turn a b c) by reflexivity. rewrite E.
  replace (flt (turn a b c) f0) with false by (symmetry; apply Rltb_nspec; cbn; lra).
  replace (feq (turn a b c) f0) with false by (symmetry; apply Reqb_nspec; cbn; lra). reflexivity.
Qed.
Ltac types := repeat match goal with |- context [corner_type_of ?a ?b ?c] =>
  first [rewrite (type_lt a b c) by (unfold turn; cbn; lra) | rewrite (type_eq a b c) by (unfold turn; cbn; lra) | rewrite (type_gt a b c) by (unfold turn; cbn; lra)] end.
(** a trapezium, whose legs meet in (4, 4) *)
Definition trapeze : list rpoint := [Pt 0 0; Pt 8 0; Pt 5 3; Pt 3 3].
Definition roof : list rpoint := [Pt 0 0; Pt 8 0; Pt 4 4].
Lemma roof_new : forall l h, l = trapeze /\ h = 3 \/ l = roof /\ h = 4 -> exists s, poly_new l = Ok s /\ p_pts s = l /\ p_area s = shoelace l.
Proof.
  intros l h Hl.
  assert (A : 0 < shoelace l) by (destruct Hl as [(-> & _)|(-> & _)]; unfold shoelace, total, trapeze, roof, ring; cbn; lra).
  destruct (new_works l (Rc 0 0 8 h) (Pt 4 1) (1 / 2)) as (s & E).
  - destruct Hl as [(-> & _)|(-> & _)]; cbn; lia.
  - destruct Hl as [(-> & _)|(-> & _)]; unfold trapeze, roof; repeat constructor; cbn [In]; intros H; repeat (destruct H as [H|H]; [injection H; intros; lra|]); exact H.
  - lra.
  - assert (B : forall q, In q l -> 0 <= px q <= 8 /\ 0 <= py q <= h).
    { destruct Hl as [(-> & ->)|(-> & ->)]; intros q H; unfold trapeze, roof in H; cbn [In] in H; repeat (destruct H as [<-|H]; [cbn; lra|]); destruct H. }
    split; [intros q H; destruct (B q H); unfold in_rect; cbn [x_min x_max y_min y_max]; lra|].
    destruct Hl as [(-> & ->)|(-> & ->)]; cbn [x_min x_max y_min y_max]; (split; [exists (Pt 0 0); unfold trapeze, roof; cbn; tauto|]);
      (split; [exists (Pt 8 0); unfold trapeze, roof; cbn; tauto|]); (split; [exists (Pt 0 0); unfold trapeze, roof; cbn; tauto|]).
    + exists (Pt 5 3). unfold trapeze; cbn; tauto.
    + exists (Pt 4 4). unfold roof; cbn; tauto.
  - split; [|split; [|intros k []]].
    + destruct Hl as [(-> & _)|(-> & _)]; unfold even_odd, trapeze, roof, parity, ring; cbn [path_edges fold_right]; rewrite !crosses_sign;
        unfold cp; cbn [px py es ee]; rcmp; reflexivity.
    + intros q O. pose proof (edist_coord (Pt 4 1) q) as (X & Y). cbn [px py] in X, Y.
      assert (Bd : py q = 0 \/ py q = 3 \/ px q = py q \/ px q + py q = 8).
      { destruct O as (e & He & (t & Ht & ->)).
        destruct Hl as [(-> & _)|(-> & _)]; unfold trapeze, roof, ring in He; cbn [path_edges In] in He;
          repeat (destruct He as [<-|He]; [unfold at_t; cbn; lra|]); destruct He. }
      revert X Y; unfold Rabs; repeat destruct Rcase_abs; lra.
  - assert (Hh : h <= 8) by (destruct Hl as [(_ & ->)|(_ & ->)]; lra).
    unfold resolution, MAX_POI_TREE_DEPTH. cbn [x_min x_max y_min y_max pow]. rewrite Rmax_left by lra.
    assert (sqrt 2 < 2); [|lra]. rewrite <- (sqrt_square 2) at 2 by lra. apply sqrt_lt_1; lra.
  - exists s. split; [exact E|]. destruct (poly_new_ok _ _ E) as (Nm & [(H & _)|(_ & H)] & _); [|lra].
    split; [exact H|]. rewrite <- H. apply Nm.
Qed.
Lemma front_none : forall a0 a b0 b, (px a - px a0) * (py b - py b0) - (py a - py a0) * (px b - px b0) = 0 ->
  intersection_in_front (Ed a0 a) (Ed b0 b) = None.
Proof.
  intros a0 a b0 b H. unfold intersection_in_front. cbn [es ee].
  match goal with |- context [feq ?x f0] => replace (feq x f0) with true by (symmetry; apply Reqb_spec; exact H) end. cbn [negb].
  replace (flt (f0 (F := R)) f0) with false by (symmetry; apply Rltb_nspec; cbn; lra). reflexivity.
Qed.
Lemma trapeze_cands : candidates_of Inflate trapeze =
  Ok [ConvexConvex (Cn 2 3 0) (Cn 3 0 1); ConvexConvex (Cn 3 0 1) (Cn 0 1 2); ConvexConvex (Cn 0 1 2) (Cn 1 2 3); ConvexConvex (Cn 1 2 3) (Cn 2 3 0)].
Proof.
  unfold candidates_of. cbn -[corner_type_of]. unfold type_at. cbn -[corner_type_of]. types. cbn -[corner_type_of].
  types. reflexivity.
Qed.
Lemma edge_new_ne : forall a b : rpoint, a <> b -> edge_new a b = Ok (Ed a b).
Proof. intros a b H. unfold edge_new. rewrite pt_eq_no by exact H. reflexivity. Qed.
Ltac ptne := let E := fresh in intros E; injection E; intros; lra.
Lemma front_meets : intersection_in_front (Ed (Pt 8 0) (Pt 5 3)) (Ed (Pt 0 0) (Pt 3 3)) = Some (Pt 4 4).
Proof.
  unfold intersection_in_front. cbn [es ee px py fadd fsub fmul fdiv f0 RNum RNumT flt feq].
  match goal with |- context [Reqb ?x 0] => replace (Reqb x 0) with false by (symmetry; apply Reqb_nspec; lra) end. cbn [negb].
  replace (Rltb _ 0) with true by (symmetry; apply Rltb_spec; lra). replace (Rltb _ 0) with true by (symmetry; apply Rltb_spec; lra).
  cbn [andb]. f_equal. apply pt_ext; cbn [px py]; lra.
Qed.
Lemma front_apart : intersection_in_front (Ed (Pt 3 3) (Pt 0 0)) (Ed (Pt 5 3) (Pt 8 0)) = None.
Proof.
  unfold intersection_in_front. cbn [es ee px py fadd fsub fmul fdiv f0 RNum RNumT flt feq].
  match goal with |- context [Reqb ?x 0] => replace (Reqb x 0) with false by (symmetry; apply Reqb_nspec; lra) end. cbn [negb].
  replace (Rltb _ 0) with false by (symmetry; apply Rltb_nspec; lra). reflexivity.
Qed.
Ltac replacing := unfold replacing_vertex, trapeze, vertex; cbn [rassert Nat.eqb rbind nth_error expect c_prev c_mid c_next];
  rewrite !edge_new_ne by ptne; cbn [rbind].
Lemma rep1 : replacing_vertex trapeze (Cn 2 3 0) (Cn 3 0 1) = Ok None.
Proof. replacing. rewrite front_none by (cbn; lra). reflexivity. Qed.
Lemma rep2 : replacing_vertex trapeze (Cn 3 0 1) (Cn 0 1 2) = Ok None.
Proof. replacing. rewrite front_apart. reflexivity. Qed.
Lemma rep3 : replacing_vertex trapeze (Cn 0 1 2) (Cn 1 2 3) = Ok None.
Proof. replacing. rewrite front_none by (cbn; lra). reflexivity. Qed.
Lemma rep4 : replacing_vertex trapeze (Cn 1 2 3) (Cn 2 3 0) = Ok (Some (Pt 4 4)).
Proof. replacing. rewrite front_meets. reflexivity. Qed.
Lemma rany_none : forall {A} (f : A -> res bool) l, (forall x, In x l -> f x = Ok false) -> rany f l = Ok false.
Proof.
  intros A f l. induction l as [|x l IH]; intros H; cbn; [reflexivity|]. rewrite (H x (or_introl eq_refl)). cbn. apply IH. intros y Hy. apply H. right. exact Hy.
Qed.
Lemma trapeze_best : best_candidate Inflate trapeze = Ok (Some (ConvexConvex (Cn 1 2 3) (Cn 2 3 0))).
Proof.
  unfold best_candidate. rewrite trapeze_cands. cbn [rbind rmapM area_delta]. rewrite rep1, rep2, rep3, rep4.
  cbn [rbind c_mid]. change (vertex trapeze 2) with (Ok (Pt 5 3)). change (vertex trapeze 3) with (Ok (Pt 3 3)). cbn [rbind].
  unfold sort_keys. cbn [fold_left insert_key key_lt fst rfind snd candidate_is_valid]. rewrite rep4. cbn [rbind c_prev c_mid c_next].
  change (vertex trapeze 1) with (Ok (Pt 8 0)). change (vertex trapeze 0) with (Ok (Pt 0 0)).
  change (vertex trapeze 2) with (Ok (Pt 5 3)). change (vertex trapeze 3) with (Ok (Pt 3 3)). cbn [rbind].
  rewrite !edge_new_ne by ptne. cbn [rbind].
  assert (H : some_edge_hits trapeze [Pt 5 3; Pt 8 0; Pt 3 3; Pt 0 0] [Ed (Pt 8 0) (Pt 4 4); Ed (Pt 4 4) (Pt 0 0)] = Ok false).
  { apply rany_none. change (length trapeze) with 4%nat. intros i Hi. apply in_seq in Hi.
    do 4 (destruct i as [|i]; [unfold vertex, trapeze; cbn [nth_error expect rbind Nat.eqb]; rewrite edge_new_ne by ptne; cbn [rbind es ee];
      unfold affected; cbn [existsb];
      repeat match goal with |- context [pt_eq ?p ?p] => replace (pt_eq p p) with true by (symmetry; apply pt_eq_ok; reflexivity) end;
      rewrite ?orb_true_r, ?orb_true_l; cbn [negb andb]; rewrite ?andb_false_r; reflexivity|]). lia. }
  rewrite H. reflexivity.
Qed.
Lemma trapeze_simplified : exists s s', poly_new trapeze = Ok s /\ simplify_shape s Inflate (1 / 10) = Ok s' /\ p_pts s = trapeze /\ p_pts s' = roof /\ normalised s.
Proof.
  destruct (roof_new trapeze 3) as (s & E & P & A); [auto|]. destruct (roof_new roof 4) as (s' & E' & P' & A'); [auto|].
  exists s, s'. split; [exact E|].
  assert (As : shoelace trapeze = 15) by (unfold shoelace, total, trapeze, ring; cbn; lra).
  assert (Ar : shoelace roof = 16) by (unfold shoelace, total, roof, ring; cbn; lra).
  split; [|split; [exact P|split; [exact P'|apply (poly_new_ok _ _ E)]]].
  unfold simplify_shape, n_points. rewrite P, A, As. cbn [length trapeze].
  assert (R1 : simpl_rounds 4 Inflate 15 (1 / 10) trapeze = Ok roof).
  { change (simpl_rounds 4 Inflate 15 (1 / 10) trapeze) with
      (best <- best_candidate Inflate trapeze ;; match best with None => Ok trapeze | Some c => l' <- execute_candidate trapeze c ;;
        if fle (fdiv (fabs (fsub (calculate_area l') 15)) 15) (1 / 10) then simpl_rounds 3 Inflate 15 (1 / 10) l' else Ok trapeze end).
    rewrite trapeze_best. cbn [rbind execute_candidate]. rewrite rep4. cbn [rbind expect c_mid trapeze remove_at Nat.ltb Nat.leb Nat.pred insert_at].
    change [Pt 0 0; Pt 8 0; Pt 4 4] with roof. rewrite area_ok, Ar.
    replace (fle _ _) with true by (symmetry; apply Rleb_spec; cbn [fdiv fabs fsub RNum RNumT]; rewrite Rabs_right; lra). reflexivity. }
  change [Pt 0 0; Pt 8 0; Pt 5 3; Pt 3 3] with trapeze. rewrite R1. exact E'.
Qed.
