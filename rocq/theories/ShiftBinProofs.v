(** Reading bins whose coordinates are moved. *)
From Coq Require Import List Bool Arith Lia.
From Verif Require Import Base Num GeoModel HazardModel QTModel TransfModel HpgModel CdeModel CdeSpec
  PolyModel ParserModel SimplModel SlotMapModel LayoutModel ProblemModel ProblemSpec LbfModel IoModel ParseModel
  BaseProofs Instances ParityProofs PipProofs RigidProofs NormProofs XformProofs RectPolyProofs NoMaxProofs ParseProofs ParseThmProofs ShiftProofs ShiftParseProofs.
From Coq Require Import Reals Lra.
From Verif Require Import GeoModel HazardModel QTModel TransfModel HpgModel CdeModel CdeSpec GeoSpec PlaceSpec HpgSpec ShapeSpec SimplSpec LbfModel LbfSpec IoModel IoSpec ParseModel ParseSpec ShiftSpec.
Import ListNotations.
Local Open Scope R_scope.
#[local] Existing Instance RTrig.

Section B.
  Variable M : R.
  Context {X : Extra R} {ED : EqD (dtransf R)} {BS : BSearch}.
  Local Notation NM := (RNumT Reqb M).
  Variable umax : nat.
  Variable pr : parser R.
  Variables dx dy : R.
  Local Notation Ss := (moved_poly dx dy).
  Definition plain (s : poly R) : Prop := p_surr s = None.
  Lemma convert_plain : forall m l s, convert_poly (N := NM) pr m l = Ok s -> plain s.
  Proof.
    intros m l s H. exact (proj2 (convert_made M pr _ _ _ H)).
  Qed.
  Lemma tr_plain : forall t t' s, (forall p, tr_point (N := RNum) t' (shifted dx dy p) = tr_point (N := RNum) t p) -> plain s ->
    tr_poly (N := RNum) t' (Ss s) = tr_poly (N := RNum) t s.
  Proof.
    intros t t' s H Hs. unfold tr_poly. cbn [moved_poly p_pts p_bbox p_area p_diam p_poi p_surr]. unfold plain in Hs. rewrite Hs. cbn [option_map].
    rewrite map_map, (map_ext _ _ H). f_equal. unfold tr_circle, moved_circle. cbn [ccen crad]. rewrite H. reflexivity.
  Qed.
  Lemma outer_moved : forall s, by_vertices s -> outer_shape (N := NM) pr (moved_shape dx dy s) = rmap Ss (outer_shape (N := NM) pr s).
  Proof. intros [w h|l|o i|] B; cbn [moved_shape outer_shape]; [destruct B|apply convert_moved|apply convert_moved|reflexivity]. Qed.
  Lemma solid_moved : forall m s, by_vertices s -> solid_shape (N := NM) pr m (moved_shape dx dy s) = rmap Ss (solid_shape (N := NM) pr m s).
  Proof. intros m [w h|l|o i|] B; cbn [moved_shape solid_shape]; [destruct B|apply convert_moved|reflexivity|reflexivity]. Qed.
  Lemma holes_moved : forall s, by_vertices s -> hole_shapes (N := NM) pr (moved_shape dx dy s) = rmap (map Ss) (hole_shapes (N := NM) pr s).
  Proof.
    intros [w h|l|o i|] B; cbn [moved_shape hole_shapes]; [destruct B|reflexivity| |reflexivity].
    apply rmapM_shift. intros l. apply convert_moved.
  Qed.
  Lemma solids_moved : forall l, Forall (fun z : nat * jshape R => by_vertices (snd z)) l ->
    rmapM (fun z => solid_shape (N := NM) pr Inflate (snd z)) (map (fun z => (fst z, moved_shape dx dy (snd z))) l) =
    rmap (map Ss) (rmapM (fun z => solid_shape (N := NM) pr Inflate (snd z)) l).
  Proof.
    induction l as [|z l IH]; intros H; [reflexivity|]. cbn [map rmapM snd]. rewrite (solid_moved Inflate (snd z) (Forall_inv H)), (IH (Forall_inv_tail H)).
    destruct (solid_shape _ _ (snd z)); [|reflexivity]. cbn [rmap rbind]. destruct (rmapM _ l); reflexivity.
  Qed.
  Definition moved_zone (z : nat * list (poly R)) : nat * list (poly R) := (fst z, map Ss (snd z)).
  Lemma zones_moved : forall zs, Forall (fun z => by_vertices (snd z)) zs ->
    parse_zones (N := NM) pr (map (fun z => (fst z, moved_shape dx dy (snd z))) zs) = rmap (map moved_zone) (parse_zones (N := NM) pr zs).
  Proof.
    intros zs H. unfold parse_zones.
    assert (E : forallb (fun z => Nat.ltb (fst z) N_QUALITIES) (map (fun z => (fst z, moved_shape dx dy (snd z))) zs) = forallb (fun z => Nat.ltb (fst z) N_QUALITIES) zs).
    { clear H. induction zs as [|z zs IH]; [reflexivity|]. cbn [map forallb fst]. rewrite IH. reflexivity. }
    rewrite E. destruct (forallb _ zs); [|reflexivity]. cbn [rassert rbind].
    generalize (seq 0 N_QUALITIES). induction l as [|q l IH]; [reflexivity|]. cbn [rmapM]. rewrite IH. clear IH.
    assert (E2 : filter (fun z => Nat.eqb (fst z) q) (map (fun z => (fst z, moved_shape dx dy (snd z))) zs) = map (fun z => (fst z, moved_shape dx dy (snd z))) (filter (fun z => Nat.eqb (fst z) q) zs)).
    { clear. induction zs as [|z zs IH]; [reflexivity|]. cbn [map filter fst]. rewrite IH. destruct (Nat.eqb (fst z) q); reflexivity. }
    rewrite E2, solids_moved.
    - destruct (rmapM _ (filter _ zs)); [|reflexivity]. cbn [rmap rbind]. destruct (rmapM _ l); reflexivity.
    - rewrite Forall_forall in *. intros z Hz. apply filter_In in Hz as (Hz & _). exact (H z Hz).
  Qed.
  Lemma rmapM_plain : forall {A} (f : A -> res (poly R)) l r, (forall a s, f a = Ok s -> plain s) -> rmapM f l = Ok r -> Forall plain r.
  Proof.
    intros A f l. induction l as [|a l IH]; intros r K H; cbn [rmapM] in H; [injection H as <-; constructor|].
    apply rbind_ok in H as (s & E & H). apply rbind_ok in H as (r' & E' & H). injection H as <-. constructor; [exact (K _ _ E)|exact (IH _ K E')].
  Qed.
  Lemma zones_plain : forall zs r, Forall (fun z => by_vertices (snd z)) zs -> parse_zones (N := NM) pr zs = Ok r -> Forall (fun z => Forall plain (snd z)) r.
  Proof.
    intros zs r B H. unfold parse_zones in H. apply rbind_ok in H as (? & _ & H). revert r H. generalize (seq 0 N_QUALITIES).
    induction l as [|q l IH]; intros r H; cbn [rmapM] in H; [injection H as <-; constructor|].
    apply rbind_ok in H as (z & E & H). apply rbind_ok in H as (r' & E' & H). injection H as <-. constructor; [|exact (IH _ E')].
    apply rbind_ok in E as (k & E & Ek). injection Ek as <-. cbn [snd].
    assert (B' : Forall (fun z => by_vertices (snd z)) (filter (fun z => Nat.eqb (fst z) q) zs)).
    { rewrite Forall_forall in *. intros y Hy. apply filter_In in Hy as (Hy & _). exact (B y Hy). }
    clear - E B'. revert k E. induction (filter _ zs) as [|y m IH]; intros k E; cbn [rmapM] in E; [injection E as <-; constructor|].
    apply rbind_ok in E as (s & E & E2). apply rbind_ok in E2 as (r' & E' & E2). injection E2 as <-. constructor; [|exact (IH (Forall_inv_tail B') _ E')].
    pose proof (Forall_inv B') as By. cbn beta in By. destruct (snd y) as [w h|v|o i|]; cbn [solid_shape] in E; [destruct By|exact (convert_plain _ _ _ E)|discriminate|discriminate].
  Qed.
  Lemma zones_fst : forall jz zs, parse_zones (N := NM) pr jz = Ok zs -> map fst zs = seq 0 N_QUALITIES.
  Proof.
    intros jz zs H. unfold parse_zones in H. apply rbind_ok in H as (? & A & H).
    revert zs H. generalize (seq 0 N_QUALITIES). induction l as [|q l IH]; intros zs H; cbn [rmapM] in H; [injection H as <-; reflexivity|].
    apply rbind_ok in H as (z & E & H). apply rbind_ok in H as (r & Er & H). injection H as <-. cbn [map]. f_equal; [|exact (IH _ Er)].
    apply rbind_ok in E as (k & _ & E). injection E as <-. reflexivity.
  Qed.
  Lemma same_areas : forall l, map (@p_area R) (map Ss l) = map (@p_area R) l.
  Proof. intros l. rewrite map_map. reflexivity. Qed.
  Lemma same_count : forall holes zs, count_polys (map Ss holes) (map moved_zone zs) = count_polys holes zs.
  Proof.
    intros holes zs. unfold count_polys. rewrite map_length, map_map. do 3 f_equal. apply map_ext. intros z. cbn [moved_zone snd]. apply map_length.
  Qed.
  Lemma fresh_pre : forall id outer v pre pre' holes zs ptr b b',
    fresh_bin (N := NM) pr id outer v pre holes zs ptr = Ok b -> fresh_bin (N := NM) pr id outer v pre' holes zs ptr = Ok b' -> same_bin b b' /\ bn_pre b = pre /\ bn_pre b' = pre'.
  Proof.
    intros id outer v pre pre' holes zs ptr b b' H H'. unfold fresh_bin, bin_new in *. apply rbind_ok in H as (? & _ & H). apply rbind_ok in H as (? & _ & H). apply rbind_ok in H as (e & E & H).
    apply rbind_ok in H' as (? & _ & H'). apply rbind_ok in H' as (? & _ & H'). apply rbind_ok in H' as (e' & E' & H').
    rewrite E in E'. injection E' as <-. injection H as <-. injection H' as <-. split; [|split; reflexivity]. repeat split.
  Qed.
  Theorem bin_same : pr_center pr = true -> forall j id ptr b n b' n', bin_by_vertices j ->
    parse_bin (N := NM) umax pr j id ptr = Ok (b, n) -> parse_bin (N := NM) umax pr (moved_bin dx dy j) id ptr = Ok (b', n') ->
    same_bin b b' /\ n' = n /\ forall p, tr_point (N := RNum) (bn_pre b') (shifted dx dy p) = tr_point (N := RNum) (bn_pre b) p.
  Proof.
    intros Hc j id ptr b n b' n' (B1 & B2) H H'. unfold parse_bin in H, H'. rewrite Hc in H, H'.
    cbn [moved_bin jb_shape jb_zones jb_stock] in H'. rewrite (outer_moved _ B1), (holes_moved _ B1), (zones_moved _ B2) in H'.
    apply rbind_ok in H as (s & Es & H). rewrite Es in H'. cbn [rmap rbind] in H'.
    apply rbind_ok in H as (hs & Eh & H). rewrite Eh in H'. cbn [rmap rbind] in H'.
    apply rbind_ok in H as (zs & Ez & H). rewrite Ez in H'. cbn [rmap rbind] in H'.
    apply rbind_ok in H as (b1 & E1 & H). apply rbind_ok in H as (b2 & E2 & H). injection H as <- <-.
    apply rbind_ok in H' as (b1' & E1' & H'). apply rbind_ok in H' as (b2' & E2' & H'). injection H' as <- <-.
    assert (Ps : plain s /\ normalised s).
    { destruct (jb_shape j) as [w h|l|o i|]; cbn [outer_shape] in Es; [destruct B1| | |discriminate]; split; eauto using convert_plain, convert_norm. }
    assert (Ph : Forall plain hs).
    { destruct (jb_shape j) as [w h|l|o i|]; cbn [hole_shapes] in Eh; [destruct B1|injection Eh as <-; constructor| |discriminate]. apply (rmapM_plain _ _ _ (convert_plain Inflate) Eh). }
    pose proof (zones_plain _ _ B2 Ez) as Pz. destruct Ps as (Ps & Nm).
    pose proof (zones_fst _ _ Ez) as Q.
    assert (Q' : map fst (map moved_zone zs) = seq 0 N_QUALITIES) by (rewrite map_map; exact Q).
    destruct (fresh_inv M pr _ _ _ _ _ _ _ _ Q E1) as (I1 & I2 & I3 & I4 & I5 & l & I6 & I7).
    destruct (fresh_inv M pr _ _ _ _ _ _ _ _ Q' E1') as (J1 & J2 & J3 & J4 & J5 & l' & J6 & J7).
    unfold pretransform_bin in E2, E2'.
    rewrite I1, I2, I3, I4, I6, omap_some in E2. rewrite J1, J2, J3, J4, J6, omap_some, same_count, same_areas in E2'. change (p_area (Ss s)) with (p_area s) in E2'.
    set (t := compose (N := NM) (centering_transformation (N := NM) s)) in *. set (t' := compose (N := NM) (centering_transformation (N := NM) (Ss s))) in *.
    assert (T : forall p, tr_point (N := RNum) t' (shifted dx dy p) = tr_point (N := RNum) t p) by exact (centring_same dx dy s (Ss s) Nm eq_refl).
    assert (G : forall u, plain u -> tr_poly (N := NM) t' (Ss u) = tr_poly (N := NM) t u) by exact (fun u => tr_plain t t' u T).
    assert (H1 : map (fun h => tr_poly (N := NM) t' (a_obj h)) (bn_holes b1') = map (fun h => tr_poly (N := NM) t (a_obj h)) (bn_holes b1)).
    { rewrite <- (map_map (@a_obj R) (tr_poly (N := NM) t')), <- (map_map (@a_obj R) (tr_poly (N := NM) t)), I5, J5, map_map. apply map_ext_in.
      intros u Hu. apply G. rewrite Forall_forall in Ph. exact (Ph u Hu). }
    assert (H2 : forall tt (k : list (qzone R)), map (fun z => (qz_quality z, map (fun u => tr_poly (N := NM) tt (a_obj u)) (qz_zones z))) k = map (fun v => (fst v, map (tr_poly (N := NM) tt) (snd v))) (map zview k)).
    { intros tt k. rewrite map_map. apply map_ext. intros z. unfold zview. cbn [fst snd]. rewrite map_map. reflexivity. }
    rewrite H2, I7 in E2. rewrite H2, J7, map_map, H1, (G s Ps) in E2'.
    assert (H3 : map (fun z => (fst (moved_zone z), map (tr_poly (N := NM) t') (snd (moved_zone z)))) zs = map (fun v => (fst v, map (tr_poly (N := NM) t) (snd v))) zs).
    { apply map_ext_in. intros z Hz. cbn [moved_zone fst snd]. f_equal. rewrite map_map. apply map_ext_in. intros u Hu. apply G.
      rewrite Forall_forall in Pz. specialize (Pz z Hz). rewrite Forall_forall in Pz. exact (Pz u Hu). }
    rewrite H3 in E2'. destruct (fresh_pre _ _ _ _ _ _ _ _ _ _ E2 E2') as (S1 & P1 & P2). split; [exact S1|]. split; [reflexivity|].
    intros p. rewrite P1, P2.
    change (tr_point (N := RNum) (t_transform (N := RNum) (t_empty (N := RNum)) t') (shifted dx dy p) = tr_point (N := RNum) (t_transform (N := RNum) (t_empty (N := RNum)) t) p).
    unfold t_transform. rewrite !dot_point by exact empty_affine. rewrite !tr_empty. exact (T p).
  Qed.
End B.
