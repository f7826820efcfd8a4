(** Concrete simple polygons and their simplification; a crossing polygon whose
    simplification loses part of it. *)
From Coq Require Import Reals List Bool Arith Lra Lia Psatz Permutation.
From Verif Require Import Base Num GeoModel HazardModel QTModel TransfModel PolyModel GeoSpec ShapeSpec SimplModel SimplSpec SimpleSpec PlaceSpec
  BaseProofs ParityProofs CrossProofs GeoPrimProofs NormProofs GeoRectProofs RegionProofs PipProofs PierProofs TouchProofs HullProofs BoundProofs PoleProofs RigidProofs ConstructProofs SquareProofs
  CentreProofs SimplProofs SimplExampleProofs SimpleProofs OrientProofs SlabProofs TriangleProofs DropProofs MergeProofs RoundProofs SimpleThmProofs.
Import ListNotations.
Local Open Scope R_scope.
#[local] Existing Instance RNum.

Lemma new_centre : forall l bb, (3 <= length l)%nat -> NoDup l -> shoelace l <> 0 -> smallest_box bb l ->
  interior l (Pt ((x_min bb + x_max bb) / 2) ((y_min bb + y_max bb) / 2)) -> exists s, poly_new l = Ok s.
Proof.
  intros l bb L D A B I. destruct (interior_ball l _ I) as (d & Hd & Bl). apply (new_works_centre l bb d L D A B Hd).
  split; [apply I|]. split; [|intros k []]. intros q O. destruct (Rle_or_lt d (edist (Pt ((x_min bb + x_max bb) / 2) ((y_min bb + y_max bb) / 2)) q)) as [X|X]; [exact X|].
  exfalso. destruct (Bl q X) as (N & _). contradiction.
Qed.
(** a concrete polygon is simple: all pairs of edges are compared *)
Ltac ring_cases H := unfold ring in H; cbn [path_edges In] in H; repeat (destruct H as [<-|H]; [|]); try (destruct H; fail).
Ltac meet :=
  match goal with O1 : on_seg _ ?p, O2 : on_seg _ ?p |- _ =>
    let s := fresh in let Hs := fresh in let t := fresh in let Ht := fresh in let E := fresh in
    destruct O1 as (s & Hs & ->); destruct O2 as (t & Ht & E);
    let X := fresh in let Y := fresh in
    pose proof (f_equal px E) as X; pose proof (f_equal py E) as Y; unfold at_t in X, Y; cbn [es ee px py] in X, Y;
    first [left; reflexivity | exfalso; lra
      | right; left; split; apply pt_ext; unfold at_t; cbn [es ee px py]; lra
      | right; right; split; apply pt_ext; unfold at_t; cbn [es ee px py]; lra] end.
Ltac nodup := repeat constructor; cbn [In]; intros H; repeat (destruct H as [H|H]; [injection H; intros; lra|]); exact H.
Ltac simple_poly := split; [cbn; lia|]; split; [nodup|]; intros e f p He Hf O1 O2;
  ring_cases He; ring_cases Hf; meet.

Lemma trapeze_simple : simple trapeze.
Proof. unfold trapeze. simple_poly. Qed.
(** an arrow: one reflex vertex *)
Definition arrow : list rpoint := [Pt 0 0; Pt 4 1; Pt 8 0; Pt 4 6].
Lemma arrow_simple : simple arrow /\ 0 < shoelace arrow.
Proof. split; [unfold arrow; simple_poly|]. unfold shoelace, total, arrow, ring; cbn; lra. Qed.
Lemma arrow_left : sees arrow (Ed (Pt 0 0) (Pt 4 1)) (Pt 2 2) /\ 0 < turn (Pt 0 0) (Pt 4 1) (Pt 2 2).
Proof.
  split; [|unfold turn; cbn; lra]. exists (at_t (Ed (Pt 0 0) (Pt 4 1)) (/ 2)), (/ 2). split; [lra|]. split; [reflexivity|].
  intros t Ht (e & He & (s & Hs & E)). pose proof (f_equal px E) as X. pose proof (f_equal py E) as Y. unfold at_t in X, Y; cbn [es ee px py] in X, Y. clear E.
  unfold arrow in He. ring_cases He; cbn [es ee px py] in X, Y; lra.
Qed.

(** *** shrinking *)
Definition kite : list rpoint := [Pt 0 0; Pt 4 (-1); Pt 8 0; Pt 4 4].
Lemma kite_simple : simple kite.
Proof. unfold kite. simple_poly. Qed.
Lemma off_poly : forall l p, (forall e, In e (ring l) -> ~ on_seg e p) -> ~ on_border l p.
Proof. intros l p H (e & He & O). exact (H e He O). Qed.
Ltac off := apply off_poly; let e := fresh in let He := fresh in let s := fresh in let Hs := fresh in let E := fresh in
  intros e He (s & Hs & E); let X := fresh in let Y := fresh in
  pose proof (f_equal px E) as X; pose proof (f_equal py E) as Y; unfold at_t in X, Y; cbn [es ee px py] in X, Y; clear E;
  ring_cases He; cbn [es ee px py] in X, Y; lra.
Ltac odd := unfold even_odd, parity, ring; cbn [path_edges fold_right]; rewrite !crosses_sign; unfold cp; cbn [px py es ee]; rcmp; reflexivity.
Lemma kite_area : shoelace kite = 20.
Proof. unfold shoelace, total, kite, ring; cbn; lra. Qed.
Lemma kite_new : exists s, poly_new kite = Ok s /\ p_pts s = kite /\ p_area s = 20.
Proof.
  destruct (new_centre kite (Rc 0 (-1) 8 4)) as (s & E).
  - cbn; lia.
  - unfold kite; nodup.
  - rewrite kite_area; lra.
  - unfold kite. split; [intros q H; cbn [In] in H; repeat (destruct H as [<-|H]; [unfold in_rect; cbn; lra|]); destruct H|].
    cbn [x_min x_max y_min y_max]. split; [exists (Pt 0 0); cbn; tauto|]. split; [exists (Pt 8 0); cbn; tauto|].
    split; [exists (Pt 4 (-1)); cbn; tauto|exists (Pt 4 4); cbn; tauto].
  - cbn [x_min x_max y_min y_max]. unfold kite. split; [off|odd].
  - exists s. split; [exact E|]. destruct (poly_new_ok _ _ E) as (Nm & [(H & _)|(_ & H)] & _); [|rewrite kite_area in H; lra].
    split; [exact H|]. rewrite (nm_area _ Nm), H. apply kite_area.
Qed.
Lemma rltb_t : forall x y, x < y -> Rltb x y = true.
Proof. intros x y H. apply Rltb_spec, H. Qed.
Lemma rltb_f : forall x y, y <= x -> Rltb x y = false.
Proof. intros x y H. apply Rltb_nspec, H. Qed.
Ltac keys := repeat match goal with |- context [Rltb ?x ?y] => first [rewrite (rltb_t x y) by lra | rewrite (rltb_f x y) by lra] end.
Lemma tri_is : forall a b c x, Rabs (turn a b c / 2) = x -> tri_area a b c = x.
Proof. intros a b c x <-. apply tri_area_ok. Qed.
Ltac area := apply tri_is; unfold turn; cbn [px py]; match goal with |- Rabs ?x = ?y => first [replace x with y by lra; apply Rabs_pos_eq; lra | replace x with (- y) by lra; rewrite Rabs_Ropp; apply Rabs_pos_eq; lra] end.
Lemma kite_cands : candidates_of Deflate kite = Ok [Concave (Cn 0 3 2); Concave (Cn 3 2 1); Concave (Cn 2 1 0); Concave (Cn 1 0 3)].
Proof.
  unfold candidates_of, corners_of. cbn -[corner_type_of]. unfold type_at. cbn -[corner_type_of]. types. cbn -[corner_type_of]. types. reflexivity.
Qed.
Lemma kite_best : best_candidate Deflate kite = Ok (Some (Concave (Cn 2 1 0))).
Proof.
  unfold best_candidate. rewrite kite_cands. cbn [rbind rmapM area_delta c_prev c_mid c_next].
  change (vertex kite 0) with (Ok (Pt 0 0)). change (vertex kite 1) with (Ok (Pt 4 (-1))). change (vertex kite 2) with (Ok (Pt 8 0)). change (vertex kite 3) with (Ok (Pt 4 4)).
  cbn [rbind].
  replace (tri_area (Pt 0 0) (Pt 4 4) (Pt 8 0)) with 16 by (symmetry; area). replace (tri_area (Pt 4 4) (Pt 8 0) (Pt 4 (-1))) with 10 by (symmetry; area).
  replace (tri_area (Pt 8 0) (Pt 4 (-1)) (Pt 0 0)) with 4 by (symmetry; area). replace (tri_area (Pt 4 (-1)) (Pt 0 0) (Pt 4 4)) with 10 by (symmetry; area).
  unfold sort_keys. cbn [fold_left insert_key key_lt fst flt RNum RNumT]. keys. cbn [insert_key key_lt fst flt RNum RNumT]. keys. cbn [insert_key key_lt fst flt RNum RNumT]. keys.
  cbn [rfind snd candidate_is_valid c_prev c_mid c_next].
  change (vertex kite 0) with (Ok (Pt 0 0)). change (vertex kite 1) with (Ok (Pt 4 (-1))). change (vertex kite 2) with (Ok (Pt 8 0)). cbn [rbind].
  rewrite edge_new_ne by ptne. cbn [rbind].
  assert (H : some_edge_hits kite [Pt 8 0; Pt 4 (-1); Pt 0 0] [Ed (Pt 8 0) (Pt 0 0)] = Ok false).
  { apply rany_none. change (length kite) with 4%nat. intros i Hi. apply in_seq in Hi.
    do 4 (destruct i as [|i]; [unfold vertex, kite; cbn [nth_error expect rbind Nat.eqb]; rewrite edge_new_ne by ptne; cbn [rbind es ee];
      unfold affected; cbn [existsb];
      repeat match goal with |- context [pt_eq ?p ?p] => replace (pt_eq p p) with true by (symmetry; apply pt_eq_ok; reflexivity) end;
      rewrite ?orb_true_r, ?orb_true_l; cbn [negb andb]; rewrite ?andb_false_r; reflexivity|]). lia. }
  rewrite H. reflexivity.
Qed.
Lemma kite_simplified : exists s s', poly_new kite = Ok s /\ simplify_shape s Deflate (1 / 4) = Ok s' /\ p_pts s = kite /\ p_pts s' = roof /\ normalised s.
Proof.
  destruct kite_new as (s & E & P & A). destruct (roof_new roof 4) as (s' & E' & P' & A'); [auto|].
  exists s, s'. split; [exact E|].
  assert (Ar : shoelace roof = 16) by (unfold shoelace, total, roof, ring; cbn; lra).
  split; [|split; [exact P|split; [exact P'|apply (poly_new_ok _ _ E)]]].
  unfold simplify_shape, n_points. rewrite P, A. cbn [length kite].
  assert (R1 : simpl_rounds 4 Deflate 20 (1 / 4) kite = Ok roof).
  { change (simpl_rounds 4 Deflate 20 (1 / 4) kite) with
      (best <- best_candidate Deflate kite ;; match best with None => Ok kite | Some c => l' <- execute_candidate kite c ;;
        if fle (fdiv (fabs (fsub (calculate_area l') 20)) 20) (1 / 4) then simpl_rounds 3 Deflate 20 (1 / 4) l' else Ok kite end).
    rewrite kite_best. cbn [rbind execute_candidate c_mid kite remove_at rbind].
    change [Pt 0 0; Pt 8 0; Pt 4 4] with roof. rewrite area_ok, Ar.
    replace (fle _ _) with true by (symmetry; apply Rleb_spec; cbn [fdiv fabs fsub RNum RNumT]; rewrite Rabs_left; lra). reflexivity. }
  change [Pt 0 0; Pt 4 (-1); Pt 8 0; Pt 4 4] with kite. rewrite R1. exact E'.
Qed.

(** *** a crossing polygon *)
Definition bow : list rpoint := [Pt 0 0; Pt 40 0; Pt 18 110; Pt 22 110].
Definition spire : list rpoint := [Pt 0 0; Pt 40 0; Pt 22 110].
Lemma bow_area : shoelace bow = 1980.
Proof. unfold shoelace, total, bow, ring; cbn; lra. Qed.
Lemma spire_area : shoelace spire = 2200.
Proof. unfold shoelace, total, spire, ring; cbn; lra. Qed.
Lemma bow_new : exists s, poly_new bow = Ok s /\ p_pts s = bow /\ p_area s = 1980.
Proof.
  destruct (new_centre bow (Rc 0 0 40 110)) as (s & E).
  - cbn; lia.
  - unfold bow; nodup.
  - rewrite bow_area; lra.
  - unfold bow. split; [intros q H; cbn [In] in H; repeat (destruct H as [<-|H]; [unfold in_rect; cbn; lra|]); destruct H|].
    cbn [x_min x_max y_min y_max]. split; [exists (Pt 0 0); cbn; tauto|]. split; [exists (Pt 40 0); cbn; tauto|].
    split; [exists (Pt 0 0); cbn; tauto|exists (Pt 18 110); cbn; tauto].
  - cbn [x_min x_max y_min y_max]. unfold bow. split; [off|odd].
  - exists s. split; [exact E|]. destruct (poly_new_ok _ _ E) as (Nm & [(H & _)|(_ & H)] & _); [|rewrite bow_area in H; lra].
    split; [exact H|]. rewrite (nm_area _ Nm), H. apply bow_area.
Qed.
Lemma spire_new : exists s, poly_new spire = Ok s /\ p_pts s = spire.
Proof.
  destruct (new_centre spire (Rc 0 0 40 110)) as (s & E).
  - cbn; lia.
  - unfold spire; nodup.
  - rewrite spire_area; lra.
  - unfold spire. split; [intros q H; cbn [In] in H; repeat (destruct H as [<-|H]; [unfold in_rect; cbn; lra|]); destruct H|].
    cbn [x_min x_max y_min y_max]. split; [exists (Pt 0 0); cbn; tauto|]. split; [exists (Pt 40 0); cbn; tauto|].
    split; [exists (Pt 0 0); cbn; tauto|exists (Pt 22 110); cbn; tauto].
  - cbn [x_min x_max y_min y_max]. unfold spire. split; [off|odd].
  - exists s. split; [exact E|]. destruct (poly_new_ok _ _ E) as (Nm & [(H & _)|(_ & H)] & _); [|rewrite spire_area in H; lra]. exact H.
Qed.
Lemma bow_cands : candidates_of Inflate bow = Ok [ConvexConvex (Cn 3 0 1) (Cn 0 1 2); Concave (Cn 1 2 3); Concave (Cn 2 3 0)].
Proof.
  unfold candidates_of. cbn -[corner_type_of]. unfold type_at. cbn -[corner_type_of]. types. cbn -[corner_type_of]. types. reflexivity.
Qed.
Lemma bow_apart : intersection_in_front (Ed (Pt 22 110) (Pt 0 0)) (Ed (Pt 18 110) (Pt 40 0)) = None.
Proof.
  unfold intersection_in_front. cbn [es ee px py fadd fsub fmul fdiv f0 RNum RNumT flt feq].
  match goal with |- context [Reqb ?x 0] => replace (Reqb x 0) with false by (symmetry; apply Reqb_nspec; lra) end. cbn [negb].
  replace (Rltb _ 0) with false by (symmetry; apply Rltb_nspec; lra). reflexivity.
Qed.
Lemma bow_rep : replacing_vertex bow (Cn 3 0 1) (Cn 0 1 2) = Ok None.
Proof.
  unfold replacing_vertex, bow, vertex; cbn [rassert Nat.eqb rbind nth_error expect c_prev c_mid c_next]; rewrite !edge_new_ne by ptne; cbn [rbind].
  rewrite bow_apart. reflexivity.
Qed.
Lemma bow_best : best_candidate Inflate bow = Ok (Some (Concave (Cn 1 2 3))).
Proof.
  unfold best_candidate. rewrite bow_cands. cbn [rbind rmapM area_delta c_prev c_mid c_next]. rewrite bow_rep.
  change (vertex bow 0) with (Ok (Pt 0 0)). change (vertex bow 1) with (Ok (Pt 40 0)). change (vertex bow 2) with (Ok (Pt 18 110)). change (vertex bow 3) with (Ok (Pt 22 110)).
  cbn [rbind].
  replace (tri_area (Pt 40 0) (Pt 18 110) (Pt 22 110)) with 220 by (symmetry; area). replace (tri_area (Pt 18 110) (Pt 22 110) (Pt 0 0)) with 220 by (symmetry; area).
  unfold sort_keys. cbn [fold_left insert_key key_lt fst flt RNum RNumT]. keys. cbn [insert_key key_lt fst flt RNum RNumT].
  cbn [rfind snd candidate_is_valid c_prev c_mid c_next].
  change (vertex bow 1) with (Ok (Pt 40 0)). change (vertex bow 2) with (Ok (Pt 18 110)). change (vertex bow 3) with (Ok (Pt 22 110)). cbn [rbind].
  rewrite edge_new_ne by ptne. cbn [rbind].
  assert (H : some_edge_hits bow [Pt 40 0; Pt 18 110; Pt 22 110] [Ed (Pt 40 0) (Pt 22 110)] = Ok false).
  { apply rany_none. change (length bow) with 4%nat. intros i Hi. apply in_seq in Hi.
    do 4 (destruct i as [|i]; [unfold vertex, bow; cbn [nth_error expect rbind Nat.eqb]; rewrite edge_new_ne by ptne; cbn [rbind es ee];
      unfold affected; cbn [existsb];
      repeat match goal with |- context [pt_eq ?p ?p] => replace (pt_eq p p) with true by (symmetry; apply pt_eq_ok; reflexivity) end;
      rewrite ?orb_true_r, ?orb_true_l; cbn [negb andb]; rewrite ?andb_false_r; reflexivity|]). lia. }
  rewrite H. reflexivity.
Qed.
Lemma bow_simplified : exists s s', poly_new bow = Ok s /\ simplify_shape s Inflate (1 / 5) = Ok s' /\ p_pts s = bow /\ p_pts s' = spire.
Proof.
  destruct bow_new as (s & E & P & A). destruct spire_new as (s' & E' & P').
  exists s, s'. split; [exact E|]. split; [|split; [exact P|exact P']].
  unfold simplify_shape, n_points. rewrite P, A. cbn [length bow].
  assert (R1 : simpl_rounds 4 Inflate 1980 (1 / 5) bow = Ok spire).
  { change (simpl_rounds 4 Inflate 1980 (1 / 5) bow) with
      (best <- best_candidate Inflate bow ;; match best with None => Ok bow | Some c => l' <- execute_candidate bow c ;;
        if fle (fdiv (fabs (fsub (calculate_area l') 1980)) 1980) (1 / 5) then simpl_rounds 3 Inflate 1980 (1 / 5) l' else Ok bow end).
    rewrite bow_best. cbn [rbind execute_candidate c_mid bow remove_at rbind].
    change [Pt 0 0; Pt 40 0; Pt 22 110] with spire. rewrite area_ok, spire_area.
    replace (fle _ _) with true by (symmetry; apply Rleb_spec; cbn [fdiv fabs fsub RNum RNumT]; rewrite Rabs_right; lra). reflexivity. }
  change [Pt 0 0; Pt 40 0; Pt 18 110; Pt 22 110] with bow. rewrite R1. exact E'.
Qed.
Lemma bow_refuted : exists l tol s s' q, poly_new l = Ok s /\ no_spikes (p_pts s) /\ 0 <= tol < 1 /\ simplify_shape s Inflate tol = Ok s' /\
  interior (p_pts s) q /\ ~ region (p_pts s') q.
Proof.
  destruct bow_simplified as (s & s' & E & Es & P & P'). exists bow, (1 / 5), s, s', (Pt 19 109). rewrite P, P'.
  split; [exact E|]. split; [|split; [lra|split; [exact Es|split]]].
  - intros e f He Hf Ej D. unfold bow in He, Hf. ring_cases He; ring_cases Hf; cbn [es ee] in Ej; unfold edet, edot in *; cbn [es ee px py] in *; try lra;
      exfalso; injection Ej; intros; lra.
  - unfold bow. split; [off|odd].
  - intros [O|O].
    + revert O. unfold spire. off.
    + assert (Z : even_odd spire (Pt 19 109) = false) by (unfold spire; odd). congruence.
Qed.
