(** Reading items and bins whose coordinates are moved. *)
From Coq Require Import List Bool Arith Lia.
From Verif Require Import Base Num GeoModel HazardModel QTModel TransfModel HpgModel CdeModel CdeSpec
  PolyModel ParserModel SimplModel SlotMapModel LayoutModel ProblemModel ProblemSpec LbfModel IoModel ParseModel
  BaseProofs Instances ParityProofs PipProofs RigidProofs NormProofs XformProofs RectPolyProofs NoMaxProofs ParseProofs ParseThmProofs ShiftProofs ShiftSimplProofs.
From Coq Require Import Reals Lra.
From Verif Require Import GeoModel HazardModel QTModel TransfModel HpgModel CdeModel CdeSpec GeoSpec PlaceSpec HpgSpec ShapeSpec SimplSpec LbfModel LbfSpec IoModel IoSpec ParseModel ParseSpec ShiftSpec.
Import ListNotations.
Local Open Scope R_scope.
#[local] Existing Instance RTrig.

Section G.
  #[local] Existing Instance RNum.
  Variables dx dy : R.
  Local Notation Sp := (shifted dx dy).
  Local Notation Sc := (moved_circle dx dy).
  Local Notation Ss := (moved_poly dx dy).
  Lemma moved_sim : forall s, sim dx dy s (Ss s).
  Proof. intros s. split; reflexivity. Qed.
  Lemma sh_surrogate : forall cfg sc s, sc_nff_piers sc = 0%nat -> surrogate_new cfg sc (Ss s) = rmap (moved_surr dx dy) (surrogate_new cfg sc s).
  Proof.
    intros cfg sc s Hz. unfold surrogate_new. change (p_pts (Ss s)) with (map Sp (p_pts s)). rewrite sh_hull_idx.
    destruct (convex_hull_indices (p_pts s)) as [h|]; [|reflexivity]. cbn [rbind].
    assert (E : rmapM (fun i => expect (nth_error (map Sp (p_pts s)) i)) h = rmap (map Sp) (rmapM (fun i => expect (nth_error (p_pts s) i)) h)).
    { rewrite <- (rmapM_shift (fun i => expect (nth_error (p_pts s) i)) (fun i => expect (nth_error (map Sp (p_pts s)) i)) (fun i => i) Sp).
      - rewrite map_id. reflexivity.
      - intros i. rewrite nth_error_map. destruct (nth_error (p_pts s) i); reflexivity. }
    rewrite E. clear E. destruct (rmapM _ h) as [hp|]; [|reflexivity]. cbn [rmap rbind]. rewrite sh_poly_new.
    destruct (poly_new hp) as [hs|]; [|reflexivity]. cbn [rmap rbind].
    rewrite (sh_additional dx dy (pc_pi cfg) s (Ss s) _ _ (moved_sim s) eq_refl eq_refl).
    destruct (additional_poles _ _ _ _) as [add|]; [|reflexivity]. cbn [rmap rbind]. change (p_poi (Ss s)) with (Sc (p_poi s)).
    change (Sc (p_poi s) :: map Sc add) with (map Sc (p_poi s :: add)). rewrite sh_bounding.
    destruct (bounding_circle _) as [bc|]; [|reflexivity]. cbn [rmap rbind]. rewrite Hz, map_length. reflexivity.
  Qed.
  Lemma sh_generate : forall cfg sc s, sc_nff_piers sc = 0%nat -> generate_surrogate cfg sc (Ss s) = rmap Ss (generate_surrogate cfg sc s).
  Proof. intros cfg sc s Hz. unfold generate_surrogate. rewrite sh_surrogate by exact Hz. destruct (surrogate_new cfg sc s); reflexivity. Qed.
  (** all fields but the surrogate *)
  Definition core (s : poly R) := (p_pts s, p_bbox s, p_area s, p_diam s, p_poi s).
  Lemma additional_core : forall pi s s' m goal, core s = core s' -> additional_poles pi s m goal = additional_poles pi s' m goal.
  Proof.
    intros pi s s' m goal E. unfold core in E. injection E as E1 E2 E3 E4 E5.
    assert (Z : forall p : rpoint, shifted 0 0 p = p) by (intros [x y]; unfold shifted; cbn [px py]; f_equal; ring).
    assert (Zc : forall c : rcircle, moved_circle 0 0 c = c) by (intros [c r]; unfold moved_circle; cbn [ccen crad]; rewrite Z; reflexivity).
    assert (H : additional_poles pi s m goal = rmap (map (moved_circle 0 0)) (additional_poles pi s' m goal)).
    { apply sh_additional; [split|exact E3|].
      - rewrite E1, (map_ext _ (fun p => p) Z), map_id. reflexivity.
      - rewrite E2. destruct (p_bbox s') as [a b c d]. unfold moved_rect. cbn [x_min y_min x_max y_max]. f_equal; ring.
      - rewrite Zc. exact E5. }
    rewrite H. destruct (additional_poles pi s' m goal) as [l|]; [|reflexivity]. cbn [rmap]. rewrite (map_ext _ (fun c => c) Zc), map_id. reflexivity.
  Qed.
  Lemma generate_core : forall cfg sc s s', core s = core s' -> generate_surrogate cfg sc s = generate_surrogate cfg sc s'.
  Proof.
    intros cfg sc s s' E. unfold generate_surrogate, surrogate_new. rewrite (additional_core _ _ _ _ _ E).
    assert (P : forall n l, generate_piers cfg s n l = generate_piers cfg s' n l).
    { intros n l. destruct s as [a b c d e f], s' as [a' b' c' d' e' f']. unfold core in E. cbn in E. injection E as -> -> -> -> ->. reflexivity. }
    unfold core in E. injection E as E1 E2 E3 E4 E5. rewrite E1, E2, E3, E4, E5.
    destruct (convex_hull_indices _); [|reflexivity]. cbn [rbind]. destruct (rmapM _ _); [|reflexivity]. cbn [rbind]. destruct (poly_new _); [|reflexivity]. cbn [rbind].
    destruct (additional_poles _ _ _ _); [|reflexivity]. cbn [rbind]. destruct (bounding_circle _); [|reflexivity]. cbn [rbind]. rewrite P. reflexivity.
  Qed.
  Lemma core_generated : forall cfg sc s s', generate_surrogate cfg sc s = Ok s' -> core s' = core s.
  Proof. intros cfg sc s s' E. unfold generate_surrogate in E. apply rbind_ok in E as (u & _ & E). injection E as <-. reflexivity. Qed.
  Lemma sh_centroid : forall s, normalised s -> p_centroid (Ss s) = Sp (p_centroid s).
  Proof.
    intros s Nm. rewrite !centroid_ok. cbn [moved_poly p_pts p_area].
    rewrite (map_ext (shifted dx dy) (rot 1 0 dx dy)) by (intros p; unfold shifted, rot; f_equal; ring).
    destruct (mx_rot 1 0 dx dy (p_pts s)) as (E & E'); [ring|]. rewrite E, E', <- (nm_area _ Nm). pose proof (nm_positive _ Nm).
    unfold shifted. cbn [px py]. f_equal; field; lra.
  Qed.
  Lemma shift_shift : forall a b c d p, shifted a b (shifted c d p) = shifted (c + a) (d + b) p.
  Proof. intros a b c d p. unfold shifted. cbn [px py]. f_equal; ring. Qed.
  Lemma core_tr : forall t t' s s', (forall p, tr_point t' (Sp p) = tr_point t p) -> core s' = core (Ss s) -> core (tr_poly t' s') = core (tr_poly t s).
  Proof.
    intros t t' s s' H E. unfold core in *. cbn [moved_poly p_pts p_bbox p_area p_diam p_poi] in E. injection E as E1 E2 E3 E4 E5.
    cbn [tr_poly p_pts p_bbox p_area p_diam p_poi]. rewrite E1, E3, E4, E5, map_map, (map_ext _ _ H).
    unfold tr_circle, moved_circle. cbn [ccen crad]. rewrite H. reflexivity.
  Qed.
  (** centring undoes the move *)
  Lemma centring_same : forall s s', normalised s -> core s' = core (Ss s) ->
    forall p, tr_point (compose (centering_transformation s')) (Sp p) = tr_point (compose (centering_transformation s)) p.
  Proof.
    intros s s' Nm E p. assert (C : p_centroid s' = p_centroid (Ss s)).
    { unfold core in E. injection E as E1 _ E3 _ _. rewrite !centroid_ok, E1, E3. reflexivity. }
    unfold centering_transformation. rewrite C, sh_centroid by exact Nm. change (@f0 R RNum) with 0. rewrite !shifted_tr, shift_shift.
    unfold shifted. cbn [px py fneg RNum RNumT]. f_equal; ring.
  Qed.
  Lemma core_norm : forall s s', core s = core s' -> normalised s -> normalised s'.
  Proof. intros [a b c d e f] [a' b' c' d' e' f'] E [A B C D G]. unfold core in E. cbn in *. injection E as -> -> -> -> ->. constructor; assumption. Qed.
  Lemma points_moved : forall l, json_points (moved_vertices dx dy l) = rmap (map Sp) (json_points l).
  Proof.
    intros l. unfold json_points, moved_vertices. rewrite map_length, !nth_error_map.
    destruct (nth_error l 0) as [a|]; [|reflexivity]. cbn [option_map expect rbind].
    destruct (nth_error l (Nat.pred (length l))) as [b|]; [|reflexivity]. cbn [option_map expect rbind fst snd rmap]. f_equal.
    cbn [feq RNum RNumT]. rewrite !eq_sh, firstn_map, !map_map. reflexivity.
  Qed.
End G.

Section P.
  Variable M : R.
  Context {X : Extra R} {ED : EqD (dtransf R)} {BS : BSearch}.
  Local Notation NM := (RNumT Reqb M).
  Variable umax : nat.
  Variable pr : parser R.
  Variables dx dy : R.
  Local Notation Ss := (moved_poly dx dy).

  Local Notation gen := (generate_surrogate (N := NM) (pr_piers pr) (pr_surr pr)).
  Lemma poly_moved_M : forall l, poly_new (N := NM) (map (shifted dx dy) l) = rmap Ss (poly_new (N := NM) l).
  Proof. intros l. rewrite !poly_new_M. apply sh_poly_new. Qed.
  Lemma gen_moved_M : sc_nff_piers (pr_surr pr) = 0%nat -> forall s, gen (Ss s) = rmap Ss (gen s).
  Proof. intros Hz s. rewrite !surrogate_M. apply sh_generate. exact Hz. Qed.
  Lemma gen_core_M : forall s s', core s = core s' -> gen s = gen s'.
  Proof. intros s s' E. rewrite !surrogate_M. apply generate_core. exact E. Qed.
  Lemma core_gen_M : forall s s', gen s = Ok s' -> core s' = core s.
  Proof. intros s s' E. rewrite surrogate_M in E. exact (core_generated _ _ _ _ E). Qed.
  Lemma convert_moved : forall m l, convert_poly (N := NM) pr m (moved_vertices dx dy l) = rmap Ss (convert_poly (N := NM) pr m l).
  Proof.
    intros m l. unfold convert_poly.
    assert (E : json_points (N := NM) (moved_vertices dx dy l) = rmap (map (shifted dx dy)) (json_points (N := NM) l)) by exact (points_moved dx dy l).
    rewrite E. destruct (json_points (N := NM) l) as [ps|]; [|reflexivity]. cbn [rmap rbind].
    rewrite poly_moved_M. destruct (poly_new (N := NM) ps) as [s|]; [|reflexivity]. cbn [rmap rbind].
    destruct (pr_simpl pr) as [t|]; [|reflexivity]. rewrite !simplify_M. apply sh_simplify.
  Qed.
  Lemma convert_made : forall m l s, convert_poly (N := NM) pr m l = Ok s -> normalised s /\ p_surr s = None.
  Proof.
    intros m l s H. unfold convert_poly in H. apply rbind_ok in H as (ps & _ & H). apply rbind_ok in H as (s0 & E & H).
    assert (K : exists l', poly_new (N := NM) l' = Ok s).
    { destruct (pr_simpl pr) as [t|]; [|injection H as <-; exists ps; exact E]. unfold simplify_shape in H. apply rbind_ok in H as (l' & _ & H). exists l'. exact H. }
    destruct K as (l' & K). rewrite poly_new_M in K. destruct (poly_new_ok l' s K) as (A & _ & B). split; assumption.
  Qed.
  Lemma convert_norm : forall m l s, convert_poly (N := NM) pr m l = Ok s -> normalised s.
  Proof.
    intros m l s H. exact (proj1 (convert_made _ _ _ H)).
  Qed.
  Definition moved_json (j : jitem R) : jitem R := JI (ji_demand j) (ji_orient j) (moved_shape dx dy (ji_shape j)) (ji_quality j).
  (** without centring the item is moved along *)
  Theorem item_moved : pr_center pr = false -> sc_nff_piers (pr_surr pr) = 0%nat -> forall d o l q id,
    parse_item (N := NM) pr (JI d o (JSimple (moved_vertices dx dy l)) q) id =
    rmap (fun x => (moved_item dx dy (fst (fst x)), snd (fst x), snd x)) (parse_item (N := NM) pr (JI d o (JSimple l) q) id).
  Proof.
    intros Hc Hp d o l q id. unfold parse_item. cbn [ji_shape ji_orient ji_quality ji_demand solid_shape]. rewrite convert_moved, Hc.
    destruct (convert_poly (N := NM) pr Inflate l) as [s|]; [|reflexivity]. cbn [rmap rbind]. unfold item_new.
    rewrite (gen_moved_M Hp). destruct (generate_surrogate (N := NM) (pr_piers pr) (pr_surr pr) s); reflexivity.
  Qed.
  Lemma centred_parse : pr_center pr = true -> forall d o l q id,
    parse_item (N := NM) pr (JI d o (JSimple l) q) id =
    (s <- convert_poly (N := NM) pr Inflate l ;; s1 <- generate_surrogate (N := NM) (pr_piers pr) (pr_surr pr) s ;;
     let t := compose (N := NM) (centering_transformation (N := NM) s1) in
     s2 <- generate_surrogate (N := NM) (pr_piers pr) (pr_surr pr) (tr_poly (N := NM) t s1) ;;
     Ok (It id s2 (orientations (N := NM) o) q, t_transform (N := NM) (t_empty (N := NM)) t, d)).
  Proof.
    intros Hc d o l q id. unfold parse_item. cbn [ji_shape ji_orient ji_quality ji_demand solid_shape]. rewrite Hc.
    destruct (convert_poly (N := NM) pr Inflate l) as [s|]; [|reflexivity]. cbn [rbind]. unfold item_new, pretransform_item, item_new.
    destruct (generate_surrogate (N := NM) (pr_piers pr) (pr_surr pr) s) as [s1|]; [|reflexivity]. cbn [rbind fst it_shape it_id it_rot it_quality].
    destruct (generate_surrogate _ _ _) as [s2|]; reflexivity.
  Qed.
  Lemma second_same : forall s s1 s1', normalised s -> core s1 = core s -> core s1' = core (Ss s) ->
    generate_surrogate (N := NM) (pr_piers pr) (pr_surr pr) (tr_poly (N := NM) (compose (N := NM) (centering_transformation (N := NM) s1')) s1') =
    generate_surrogate (N := NM) (pr_piers pr) (pr_surr pr) (tr_poly (N := NM) (compose (N := NM) (centering_transformation (N := NM) s1)) s1).
  Proof.
    intros s s1 s1' Nm E E'. assert (E2 : core s1' = core (Ss s1)).
    { rewrite E'. unfold core in *. injection E as E1 E2 E3 E4 E5. cbn [moved_poly p_pts p_bbox p_area p_diam p_poi]. congruence. }
    assert (Nm1 : normalised s1) by (apply (core_norm s s1); [symmetry; exact E|exact Nm]).
    apply gen_core_M. apply (core_tr dx dy); [exact (centring_same dx dy s1 s1' Nm1 E2)|exact E2].
  Qed.
  (** With centring the very same item is read, however its surrogate is made. *)
  Theorem centred_same : pr_center pr = true -> forall d o l q id it pre n it' pre' n',
    parse_item (N := NM) pr (JI d o (JSimple l) q) id = Ok (it, pre, n) ->
    parse_item (N := NM) pr (JI d o (JSimple (moved_vertices dx dy l)) q) id = Ok (it', pre', n') ->
    it' = it /\ n' = n /\ forall p, tr_point (N := RNum) pre' (shifted dx dy p) = tr_point (N := RNum) pre p.
  Proof.
    intros Hc d o l q id it pre n it' pre' n' H H'. rewrite centred_parse in H by exact Hc. rewrite centred_parse, convert_moved in H' by exact Hc.
    apply rbind_ok in H as (s & Es & H). rewrite Es in H'. cbn [rmap rbind] in H'.
    apply rbind_ok in H as (s1 & E1 & H). apply rbind_ok in H as (s2 & E2 & H). injection H as <- <- <-.
    apply rbind_ok in H' as (s1' & E1' & H'). apply rbind_ok in H' as (s2' & E2' & H'). injection H' as <- <- <-.
    pose proof (convert_norm _ _ _ Es) as Nm. pose proof (core_gen_M _ _ E1) as C1. pose proof (core_gen_M _ _ E1') as C1'.
    pose proof (second_same s s1 s1' Nm C1 C1') as Q.
    assert (s2' = s2) as -> by (assert (K : Ok s2' = Ok s2) by (transitivity (generate_surrogate (N := NM) (pr_piers pr) (pr_surr pr) (tr_poly (N := NM) (compose (N := NM) (centering_transformation (N := NM) s1')) s1')); [symmetry; exact E2'|exact (eq_trans Q E2)]); injection K; auto).
    split; [reflexivity|]. split; [reflexivity|]. intros p.
    assert (C2 : core s1' = core (Ss s1)).
    { rewrite C1'. unfold core in *. injection C1 as K1 K2 K3 K4 K5. cbn [moved_poly p_pts p_bbox p_area p_diam p_poi]. congruence. }
    assert (Nm1 : normalised s1) by (apply (core_norm s s1); [symmetry; exact C1|exact Nm]).
    pose proof (centring_same dx dy s1 s1' Nm1 C2 p) as K. set (c' := centering_transformation (N := RNum) s1') in *. set (c := centering_transformation (N := RNum) s1) in *.
    change (tr_point (N := RNum) (t_transform (N := RNum) (t_empty (N := RNum)) (compose (N := RNum) c')) (shifted dx dy p) =
            tr_point (N := RNum) (t_transform (N := RNum) (t_empty (N := RNum)) (compose (N := RNum) c)) p).
    unfold t_transform. rewrite !dot_point by exact empty_affine. rewrite !tr_empty. exact K.
  Qed.
  (** Without piers it is read wherever it is. *)
  Theorem centred_reads : pr_center pr = true -> sc_nff_piers (pr_surr pr) = 0%nat -> forall d o l q id it pre n,
    parse_item (N := NM) pr (JI d o (JSimple l) q) id = Ok (it, pre, n) ->
    exists pre', parse_item (N := NM) pr (JI d o (JSimple (moved_vertices dx dy l)) q) id = Ok (it, pre', n) /\
      forall p, tr_point (N := RNum) pre' (shifted dx dy p) = tr_point (N := RNum) pre p.
  Proof.
    intros Hc Hp d o l q id it pre n H.
    assert (R1 : exists it' pre' n', parse_item (N := NM) pr (JI d o (JSimple (moved_vertices dx dy l)) q) id = Ok (it', pre', n')).
    { rewrite centred_parse in H by exact Hc. rewrite centred_parse, convert_moved by exact Hc.
      apply rbind_ok in H as (s & Es & H). rewrite Es. cbn [rmap rbind].
      apply rbind_ok in H as (s1 & E1 & H). apply rbind_ok in H as (s2 & E2 & H).
      assert (E : generate_surrogate (N := NM) (pr_piers pr) (pr_surr pr) (Ss s) = Ok (Ss s1)).
      { transitivity (rmap Ss (generate_surrogate (N := NM) (pr_piers pr) (pr_surr pr) s)); [exact (gen_moved_M Hp s)|]. rewrite E1. reflexivity. }
      rewrite E. cbn [rbind]. pose proof (core_gen_M _ _ E1) as C1. pose proof (core_gen_M _ _ E) as C1'.
      rewrite (second_same s s1 (Ss s1) (convert_norm _ _ _ Es) C1 C1'), E2. cbn [rbind]. eauto. }
    destruct R1 as (it' & pre' & n' & H'). destruct (centred_same Hc _ _ _ _ _ _ _ _ _ _ _ H H') as (-> & -> & K). exists pre'. auto.
  Qed.
End P.
