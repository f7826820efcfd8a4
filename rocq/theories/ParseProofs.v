(** What the parser makes of a file, in exact arithmetic. *)
From Coq Require Import List Bool Arith Lia.
From Verif Require Import Base Num GeoModel HazardModel TransfModel PolyModel ParserModel SimplModel HpgModel CdeModel
  LayoutModel ProblemModel LbfModel ParseModel BaseProofs NoMaxProofs Instances GeoSpec ParityProofs NormProofs XformProofs ConstructProofs RectPolyProofs SimplProofs SimpleSpec RoundProofs SimpleThmProofs LayoutProofs ProblemProofs ProblemOpsProofs.
From Coq Require Import Reals Lra.
From Verif Require Import GeoModel HazardModel TransfModel GeoSpec ShapeSpec SimplSpec LbfSpec IoSpec ParseModel ParseSpec.
Import ListNotations.
Local Open Scope R_scope.
#[local] Existing Instance RTrig.

(** *** vertices *)
Lemma removelast_firstn : forall {A} (l : list A), firstn (Nat.pred (length l)) l = removelast l.
Proof.
  induction l as [|a l IH]; [reflexivity|]. destruct l as [|b l]; [reflexivity|]. cbn [length Nat.pred firstn removelast] in *. f_equal. exact IH.
Qed.
Lemma last_nth : forall {A} (l : list A) d, l <> [] -> nth_error l (Nat.pred (length l)) = Some (last l d).
Proof.
  induction l as [|a l IH]; intros d H; [contradiction|]. destruct l as [|b l]; [reflexivity|]. cbn [length Nat.pred nth_error last] in *. apply IH. discriminate.
Qed.
Lemma vertices_ok : forall l v, json_points (N := RNum) l = Ok v -> (1 < length v)%nat -> v = vertices l.
Proof.
  intros l v H L. unfold json_points in H. apply rbind_ok in H as (a & Ea & H). apply expect_ok in Ea. apply rbind_ok in H as (b & Eb & H). apply expect_ok in Eb.
  injection H as <-. destruct l as [|a' r]; [discriminate|]. injection Ea as ->. rewrite (last_nth (a :: r) a) in Eb by discriminate. injection Eb as <-.
  destruct r as [|c r].
  - exfalso. cbn in L. destruct (_ && _) in L; cbn in L; lia.
  - unfold vertices. f_equal. change (last (a :: c :: r) a) with (last (c :: r) a) in *.
    replace (same_pair (last (c :: r) a) a) with (feq (Num := RNum) (fst a) (fst (last (c :: r) a)) && feq (Num := RNum) (snd a) (snd (last (c :: r) a)))%bool.
    + destruct (_ && _)%bool; [apply removelast_firstn|]. apply firstn_all.
    + unfold same_pair. cbn [feq RNum RNumT]. unfold Reqb. repeat destruct (Req_EM_T _ _); try reflexivity; congruence.
Qed.

(** *** polygons *)
Definition tol_ok (t : option R) : Prop := match t with Some t => 0 <= t | None => True end.
Lemma simplify_new : forall s m t s', simplify_shape (N := RNum) s m t = Ok s' -> exists l, poly_new (N := RNum) l = Ok s'.
Proof. intros s m t s' H. unfold simplify_shape in H. apply rbind_ok in H as (l & _ & H). exists l. exact H. Qed.

Section P.
  Variable M : R.
  Context {X : Extra R} {ED : EqD (dtransf R)} {BS : BSearch}.
  Local Notation NM := (RNumT Reqb M).
  Variable umax : nat.
  Variable pr : parser R.
  Hypothesis Ht : tol_ok (pr_simpl pr).

  Lemma convert_inv : forall m l s, convert_poly (N := NM) pr m l = Ok s ->
    made s /\ p_surr s = None /\ drawn (pr_simpl pr) m (vertices l) (p_pts s).
  Proof.
    intros m l s H. unfold convert_poly in H. apply rbind_ok in H as (v & Ev & H). apply rbind_ok in H as (s0 & E0 & H).
    rewrite poly_new_M in E0. destruct (poly_new_ok _ _ E0) as (Nm & Or & Ns). destruct (new_made _ _ E0) as (Md & _).
    assert (Ev' : v = vertices l).
    { apply vertices_ok; [exact Ev|]. pose proof (nm_size _ Nm) as L. destruct Or as [(Eq & _)|(Eq & _)]; rewrite Eq in L; [|rewrite rev_length in L]; lia. }
    subst v. destruct (pr_simpl pr) as [t|] eqn:Et.
    - rewrite simplify_M in H. destruct (simplify_new _ _ _ _ H) as (l' & El). destruct (new_made _ _ El) as (Md' & _).
      cbn [tol_ok] in Ht. destruct (simplify_spec m t s0 s Nm Ht H) as (Nm' & (_ & L2) & A1 & A2 & A3 & A4).
      split; [exact Md'|]. split; [exact (proj2 (proj2 (poly_new_ok _ _ El)))|]. exists (p_pts s0). split; [exact Or|].
      rewrite <- (nm_area _ Nm), <- (nm_area _ Nm'). split; [exact L2|]. split; [exact A1|]. split; [exact A2|]. split; [exact A3|].
      intros Hm. split; [exact (A4 Hm)|]. intros Sv. destruct (simplify_region m t s0 s Nm (proj1 (poly_simple _ _ E0 Sv)) Hm H) as (S1 & M1). split; [exact S1|].
      assert (Rv : forall q, region (p_pts s0) q <-> region (vertices l) q) by (intros q; destruct Or as [(-> & _)|(-> & _)]; [reflexivity|apply region_rev]).
      destruct m; intros q Q; [apply M1, Rv, Q|apply Rv, M1, Q].
    - injection H as <-. split; [exact Md|]. split; [exact Ns|]. exists (p_pts s0). split; [exact Or|reflexivity].
  Qed.
  Lemma rect_inv : forall w h s, rect_shape (N := NM) w h = Ok s ->
    made s /\ p_surr s = None /\ drawn None Inflate (outline (JRect w h)) (p_pts s).
  Proof.
    intros w h s H. unfold rect_shape, poly_of_rect in H. rewrite poly_new_M in H.
    destruct (poly_new_ok _ _ H) as (Nm & Or & Ns). destruct (new_made _ _ H) as (Md & _). split; [exact Md|]. split; [exact Ns|].
    exists (p_pts s). split; [exact Or|reflexivity].
  Qed.
  Lemma solid_inv : forall m j s, solid_shape (N := NM) pr m j = Ok s ->
    made s /\ p_surr s = None /\ sketched (pr_simpl pr) m j (p_pts s).
  Proof. intros m [w h|l|o i|] s H; try discriminate; [exact (rect_inv w h s H)|exact (convert_inv m l s H)]. Qed.
  Lemma outer_inv : forall j s, outer_shape (N := NM) pr j = Ok s ->
    made s /\ p_surr s = None /\ sketched (pr_simpl pr) Deflate j (p_pts s).
  Proof. intros [w h|l|o i|] s H; try discriminate; [exact (rect_inv w h s H)|exact (convert_inv _ l s H)|exact (convert_inv _ o s H)]. Qed.
  Lemma holes_inv : forall j l, hole_shapes (N := NM) pr j = Ok l ->
    Forall made l /\ Forall2 (drawn (pr_simpl pr) Inflate) (cutouts j) (map (@p_pts R) l).
  Proof.
    intros [w h|v|o i|] l H; try discriminate; try (injection H as <-; split; constructor).
    cbn [hole_shapes cutouts] in *. revert l H. induction i as [|v i IH]; intros l H; cbn [rmapM] in H; [injection H as <-; split; constructor|].
    apply rbind_ok in H as (s & E & H). apply rbind_ok in H as (r & Er & H). injection H as <-. destruct (IH _ Er) as (A & B).
    destruct (convert_inv _ _ _ E) as (C & _ & D). split; cbn [map]; constructor; auto.
  Qed.

  (** *** items *)
  Lemma orient_ok : @fPI R X = PI -> forall o a, allowed (orientations (N := NM) o) a <-> angle_ok o a.
  Proof.
    intros Ep o a. unfold orientations, angle_ok. destruct o as [l|]; [|cbn; tauto].
    assert (K : forall d, to_radians (N := NM) d = d / 180 * PI).
    { intros d. unfold to_radians. rewrite Ep. change (d * (PI / INR 180) = d / 180 * PI). rewrite INR_IZR_INZ. change (IZR (Z.of_nat 180)) with 180. field. }
    assert (D : forall l, allowed (RotDiscrete (map (to_radians (N := NM)) l)) a <-> exists d, In d l /\ a = d / 180 * PI).
    { intros k. cbn [allowed]. rewrite in_map_iff. split; intros (d & A & B); exists d; [rewrite <- A, K|rewrite K]; auto. }
    destruct l as [|d [|d' l]].
    - cbn [allowed]. split; [tauto|]. intros [(_ & A)|(d & [] & _)]. exact A.
    - destruct (feq d f0) eqn:Ed.
      + assert (d = 0) as ->. { cbn in Ed. unfold Reqb in Ed. destruct (Req_EM_T d 0); [assumption|discriminate]. }
        cbn [allowed]. split; [intros ->; right; exists 0; split; [left; reflexivity|lra]|].
        intros [(A & _)|(d & [<-|[]] & A)]; [discriminate|]. lra.
      + rewrite D. split; [intros H; right; exact H|intros [(A & _)|H]; [discriminate|exact H]].
    - rewrite D. split; [intros H; right; exact H|intros [(A & _)|H]; [discriminate|exact H]].
  Qed.
  Lemma shifted_tr : forall dx dy p, tr_point (N := RNum) (compose (N := RNum) (DT 0 dx dy)) p = shifted dx dy p.
  Proof. intros dx dy p. unfold compose. rewrite tr_rt. cbn [dt_rot dt_tx dt_ty]. unfold turned, shifted. cbn [px py]. rewrite cos_0, sin_0. f_equal; ring. Qed.
  Lemma shift0 : forall p, shifted 0 0 p = p.
  Proof. intros [x y]. unfold shifted. cbn. f_equal; ring. Qed.
  Lemma at_shift0 : forall s, made s -> at_shift 0 0 (p_pts s) s.
  Proof. intros s H. split; [|exact H]. rewrite <- (map_id (p_pts s)) at 1. apply map_ext. intros p. symmetry. apply shift0. Qed.
  Lemma at_shift_tr : forall dx dy s, made s -> at_shift dx dy (p_pts s) (tr_poly (N := RNum) (compose (N := RNum) (DT 0 dx dy)) s).
  Proof.
    intros dx dy s H. split; [|apply made_tr; [apply affine_rigid, rt_affine|exact H]]. cbn [tr_poly p_pts]. apply map_ext. intros p. apply shifted_tr.
  Qed.
  Lemma shift_empty : motion (t_empty (N := RNum)) /\ shift_by (t_empty (N := RNum)) 0 0.
  Proof. split; [exact empty_affine|]. intros p. rewrite tr_empty. symmetry. apply shift0. Qed.
  Lemma shift_once : forall dx dy, let t := t_transform (N := RNum) (t_empty (N := RNum)) (compose (N := RNum) (DT 0 dx dy)) in motion t /\ shift_by t dx dy.
  Proof.
    intros dx dy t. split; [unfold t, t_transform; apply dot_affine; [apply rt_affine|exact empty_affine]|].
    intros p. unfold t, t_transform. rewrite dot_point by exact empty_affine. rewrite tr_empty. apply shifted_tr.
  Qed.
  Lemma centred_tr : forall s, normalised s ->
    p_centroid (N := RNum) (tr_poly (N := RNum) (compose (N := RNum) (centering_transformation (N := RNum) s)) s) = Pt 0 0.
  Proof.
    intros s H. rewrite centroid_tr; [|apply affine_rigid, rt_affine|exact H]. unfold centering_transformation.
    change (@f0 R RNum) with 0. rewrite shifted_tr. unfold shifted. cbn [fneg RNum RNumT]. f_equal; lra.
  Qed.
  (** *)
  Lemma parse_item_inv : @fPI R X = PI -> forall j id it pre d, parse_item (N := NM) pr j id = Ok (it, pre, d) ->
    exists dx dy o, item_reads (pr_simpl pr) j id it pre dx dy o /\ d = ji_demand j /\
      if pr_center pr then p_centroid (N := RNum) (it_shape it) = Pt 0 0 else dx = 0 /\ dy = 0.
  Proof.
    intros Ep j id it pre d H. unfold parse_item in H. apply rbind_ok in H as (s & Es & H). destruct (solid_inv _ _ _ Es) as (Md & _ & Sk).
    apply rbind_ok in H as (base & Eb & H). unfold item_new in Eb. apply rbind_ok in Eb as (s' & Es' & Eb). injection Eb as <-. cbn [fst] in H.
    rewrite surrogate_M in Es'. destruct (surrogate_poles _ _ _ _ Md Es') as (Md' & Ep' & _ & _ & _ & u & Eu & _).
    apply rbind_ok in H as (x & Ex & H). injection H as -> <-. destruct (pr_center pr).
    - unfold pretransform_item, item_new in Ex. apply rbind_ok in Ex as (s2 & Es2 & Ex). injection Ex as <- <-.
      rewrite surrogate_M in Es2. cbn [it_shape it_id it_rot it_quality] in *.
      set (c := centering_transformation (N := RNum) s') in *.
      change (generate_surrogate (N := RNum) (pr_piers pr) (pr_surr pr) (tr_poly (N := RNum) (compose (N := RNum) c) s') = Ok s2) in Es2.
      destruct (at_shift_tr (dt_tx c) (dt_ty c) s' Md') as (A & B).
      change (DT 0 (dt_tx c) (dt_ty c)) with c in A, B.
      destruct (surrogate_poles _ _ _ _ B Es2) as (Md2 & Ep2 & _ & _ & _ & u2 & Eu2 & _).
      exists (dt_tx c), (dt_ty c), (p_pts s). split; [|split; [reflexivity|]].
      + split; cbn [it_id it_quality it_rot it_shape]; auto.
        * exact (orient_ok Ep (ji_orient j)).
        * split; [|exact Md2]. rewrite Ep2, A, Ep'. reflexivity.
        * rewrite Eu2. discriminate.
        * exact (proj1 (shift_once (dt_tx c) (dt_ty c))).
        * exact (proj2 (shift_once (dt_tx c) (dt_ty c))).
      + cbn [it_shape]. rewrite centroid_ok, Ep2. rewrite (nm_area _ (md_norm _ Md2)), Ep2, <- (nm_area _ (md_norm _ B)), <- centroid_ok. exact (centred_tr s' (md_norm _ Md')).
    - injection Ex as <- <-. exists 0, 0, (p_pts s). split; [|auto].
      split; cbn [it_id it_quality it_rot it_shape]; auto.
      + exact (orient_ok Ep (ji_orient j)).
      + rewrite <- Ep'. apply at_shift0. exact Md'.
      + rewrite Eu. discriminate.
      + exact (proj1 shift_empty).
      + exact (proj2 shift_empty).
  Qed.

  (** *** bins *)
  Local Notation bin := (bin R (dtransf R)).
  Definition zview (z : qzone R) : nat * list (poly R) := (qz_quality z, map (@a_obj R) (qz_zones z)).
  Lemma alloc_objs : forall ptr l, map (@a_obj R) (alloc ptr l) = l.
  Proof.
    intros ptr l. unfold alloc. rewrite map_map. cbn [a_obj]. generalize 0%nat. induction l as [|s l IH]; intros n; cbn; [reflexivity|]. f_equal. apply IH.
  Qed.
  Lemma alloc_zones_view : forall zs ptr, map zview (alloc_zones ptr zs) = zs.
  Proof.
    intros zs ptr. unfold alloc_zones.
    assert (K : forall zs acc ptr, map zview (fst (fold_left (fun '(acc, ptr) z => (acc ++ [QZ (fst z) (alloc ptr (snd z))], ptr + length (snd z))%nat) zs (acc, ptr))) = map zview acc ++ zs).
    { induction zs0 as [|z zs0 IH]; intros acc p; cbn [fold_left]; [cbn; rewrite app_nil_r; reflexivity|].
      rewrite IH, map_app, <- app_assoc. cbn [map app zview qz_quality qz_zones]. f_equal. f_equal. unfold zview. cbn [qz_quality qz_zones]. rewrite alloc_objs. destruct z; reflexivity. }
    exact (K zs [] ptr).
  Qed.
  Lemma zone_array_full : forall zs : list (qzone R), map (@qz_quality R) zs = seq 0 N_QUALITIES -> zone_array zs = map Some zs.
  Proof.
    intros zs H. do 10 (destruct zs as [|? zs]; [discriminate H|]). destruct zs; [|discriminate H].
    unfold N_QUALITIES in H. cbn [map seq] in H. injection H as E0 E1 E2 E3 E4 E5 E6 E7 E8 E9.
    unfold zone_array. cbn [fold_left]. rewrite E0, E1, E2, E3, E4, E5, E6, E7, E8, E9. reflexivity.
  Qed.
  Lemma omap_some : forall {A} (l : list A), omap (fun z => z) (map Some l) = l.
  Proof. induction l; cbn; [reflexivity|]. f_equal. assumption. Qed.
  Lemma fresh_inv : forall id outer v pre holes zs ptr b, map fst zs = seq 0 N_QUALITIES ->
    fresh_bin (N := NM) pr id outer v pre holes zs ptr = Ok b ->
    bn_id b = id /\ a_obj (bn_outer b) = outer /\ bn_value b = v /\ bn_pre b = pre /\ map (@a_obj R) (bn_holes b) = holes /\
    exists l, bn_zones b = map Some l /\ map zview l = zs.
  Proof.
    intros id outer v pre holes zs ptr b Q H. unfold fresh_bin, bin_new in H. apply rbind_ok in H as (? & _ & H). apply rbind_ok in H as (? & _ & H).
    apply rbind_ok in H as (e & _ & H). injection H as <-. cbn [bn_id bn_outer bn_value bn_pre bn_holes bn_zones a_obj]. repeat (split; [try reflexivity; apply alloc_objs|]).
    exists (alloc_zones (S (ptr + length holes)) zs). split; [|apply alloc_zones_view]. apply zone_array_full.
    pose proof (f_equal (map fst) (alloc_zones_view zs (S (ptr + length holes)))) as K. rewrite map_map, Q in K. exact K.
  Qed.
  Lemma zones_inv : forall jz zs, parse_zones (N := NM) pr jz = Ok zs ->
    map fst zs = seq 0 N_QUALITIES /\ (forall z, In z jz -> (fst z < 10)%nat) /\
    forall z, In z zs -> Forall2 (fun y s => made s /\ sketched (pr_simpl pr) Inflate (snd y) (p_pts s)) (filter (fun y => Nat.eqb (fst y) (fst z)) jz) (snd z).
  Proof.
    intros jz zs H. unfold parse_zones in H. apply rbind_ok in H as (? & A & H).
    split; [|split].
    - revert zs H. generalize (seq 0 N_QUALITIES). induction l as [|q l IH]; intros zs H; cbn [rmapM] in H; [injection H as <-; reflexivity|].
      apply rbind_ok in H as (z & E & H). apply rbind_ok in H as (r & Er & H). injection H as <-. cbn [map]. f_equal; [|exact (IH _ Er)].
      apply rbind_ok in E as (k & _ & E). injection E as <-. reflexivity.
    - intros z Hz. destruct (forallb _ jz) eqn:Fa; [|discriminate]. rewrite forallb_forall in Fa. specialize (Fa _ Hz). apply Nat.ltb_lt in Fa. exact Fa.
    - intros z Hz. apply rmapM_F2 in H. destruct (F2_in_r _ _ _ _ H Hz) as (q & _ & E). apply rbind_ok in E as (k & Ek & E). injection E as <-. cbn [fst snd].
      clear Hz H. revert k Ek. induction (filter _ jz) as [|y l IH]; intros k Ek; cbn [rmapM] in Ek; [injection Ek as <-; constructor|].
      apply rbind_ok in Ek as (s & E & Ek). apply rbind_ok in Ek as (r & Er & Ek). injection Ek as <-. constructor; [|exact (IH _ Er)].
      destruct (solid_inv _ _ _ E) as (C & _ & D). auto.
  Qed.
  (** zones grouped by quality, put back in the order of the file *)
  Lemma regroup : forall (P : nat * jshape R -> poly R -> Prop) jz (zs : list (nat * list (poly R))),
    (forall z, In z jz -> exists l, In (fst z, l) zs) -> NoDup (map fst zs) ->
    (forall z, In z zs -> Forall2 P (filter (fun y => Nat.eqb (fst y) (fst z)) jz) (snd z)) ->
    exists ss, Forall2 (fun y s => fst s = fst y /\ P y (snd s)) jz ss /\
      forall z, In z zs -> snd z = map snd (filter (fun s => Nat.eqb (fst s) (fst z)) ss).
  Proof.
    intros P. induction jz as [|y jz IH]; intros zs Hk Nd Hf.
    - exists []. split; [constructor|]. intros z Hz. specialize (Hf z Hz). cbn [filter] in Hf. inversion Hf. reflexivity.
    - destruct (Hk y (or_introl eq_refl)) as (l & Hl). pose proof (Hf _ Hl) as Fl. cbn [filter fst snd] in Fl. rewrite Nat.eqb_refl in Fl.
      inversion Fl as [|? s ? l' Ps Fl']; subst.
      set (zs' := map (fun z => if Nat.eqb (fst z) (fst y) then (fst z, tl (snd z)) else z) zs).
      assert (Ef : map fst zs' = map fst zs). { unfold zs'. rewrite map_map. apply map_ext. intros z. destruct (Nat.eqb _ _); reflexivity. }
      destruct (IH zs') as (ss & Fs & Gs).
      + intros z Hz. destruct (Hk z (or_intror Hz)) as (k & Hk'). unfold zs'.
        exists (if Nat.eqb (fst z) (fst y) then tl k else k). apply in_map_iff. exists (fst z, k). split; [|exact Hk']. cbn [fst snd]. destruct (Nat.eqb _ _); reflexivity.
      + rewrite Ef. exact Nd.
      + intros z Hz. unfold zs' in Hz. apply in_map_iff in Hz as (z0 & Ez & Hz0). pose proof (Hf _ Hz0) as F0. cbn [filter] in F0.
        destruct (Nat.eqb (fst z0) (fst y)) eqn:E.
        * subst z. cbn [fst snd]. rewrite Nat.eqb_sym, E in F0. inversion F0; subst. cbn [tl]. assumption.
        * subst z. rewrite Nat.eqb_sym, E in F0. exact F0.
      + exists ((fst y, s) :: ss). split; [constructor; auto|]. intros z Hz.
        assert (Hz' : In (if Nat.eqb (fst z) (fst y) then (fst z, tl (snd z)) else z) zs') by (unfold zs'; apply in_map_iff; eauto).
        specialize (Gs _ Hz'). cbn [filter fst]. destruct (Nat.eqb (fst z) (fst y)) eqn:E; rewrite Nat.eqb_sym, E.
        * cbn [fst snd map] in *. rewrite <- Gs. apply Nat.eqb_eq in E.
          assert (z = (fst y, s :: l')) as ->; [|reflexivity].
          destruct z as [q k]. cbn [fst] in E. subst q. f_equal.
          clear - Nd Hz Hl. induction zs as [|z zs IH]; [contradiction|]. cbn [map] in Nd. inversion Nd as [|? ? N1 N2]; subst.
          destruct Hz as [->|Hz], Hl as [Hl|Hl]; try congruence.
          -- exfalso. apply N1. cbn [fst]. apply (in_map fst) in Hl. exact Hl.
          -- exfalso. apply N1. rewrite Hl. apply (in_map fst) in Hz. exact Hz.
          -- auto.
        * exact Gs.
  Qed.
  Lemma at_shift0_all : forall l, Forall made l -> Forall2 (at_shift 0 0) (map (@p_pts R) l) l.
  Proof. induction 1; cbn [map]; constructor; auto. apply at_shift0. assumption. Qed.
  Lemma at_shift_all : forall dx dy l, Forall made l ->
    Forall2 (at_shift dx dy) (map (@p_pts R) l) (map (tr_poly (N := RNum) (compose (N := RNum) (DT 0 dx dy))) l).
  Proof. induction 1; cbn [map]; constructor; auto. apply at_shift_tr. assumption. Qed.
  Theorem parse_bin_inv : forall j id ptr b n, parse_bin (N := NM) umax pr j id ptr = Ok (b, n) ->
    exists dx dy o hs zs, bin_reads (pr_simpl pr) j id b dx dy o hs zs /\ n = match jb_stock j with Some n => n | None => umax end /\
      if pr_center pr then p_centroid (N := RNum) (a_obj (bn_outer b)) = Pt 0 0 else dx = 0 /\ dy = 0.
  Proof.
    intros j id ptr b n H. unfold parse_bin in H. apply rbind_ok in H as (outer & Eo & H). apply rbind_ok in H as (holes & Eh & H).
    apply rbind_ok in H as (zs & Ez & H). apply rbind_ok in H as (base & Eb & H). apply rbind_ok in H as (b' & Ex & H). injection H as -> <-.
    destruct (outer_inv _ _ Eo) as (Mo & _ & So). destruct (holes_inv _ _ Eh) as (Mh & Sh). destruct (zones_inv _ _ Ez) as (Qz & Lz & Fz).
    destruct (fresh_inv _ _ _ _ _ _ _ _ Qz Eb) as (Bi & Bo & _ & Bp & Bh & zl & Bz & Bv).
    destruct (regroup (fun y s => made s /\ sketched (pr_simpl pr) Inflate (snd y) (p_pts s)) (jb_zones j) zs) as (ss & Fs & Gs); [| |exact Fz|].
    { intros z Hz. specialize (Lz z Hz). assert (Hi : In (fst z) (map fst zs)) by (rewrite Qz; apply in_seq; unfold N_QUALITIES; lia).
      apply in_map_iff in Hi as ([q l] & Eq & Hi). cbn [fst] in Eq. subst q. eauto. }
    { rewrite Qz. apply seq_NoDup. }
    assert (Ms : forall x, In x ss -> made (snd x)). { intros x Hx. destruct (F2_in_r _ _ _ _ Fs Hx) as (y & _ & _ & A & _). exact A. }
    assert (Qs : forall x, In x ss -> (fst x < 10)%nat). { intros x Hx. destruct (F2_in_r _ _ _ _ Fs Hx) as (y & Hy & Ey & _). rewrite Ey. auto. }
    assert (Sz : Forall2 (fun z z' => fst z' = fst z /\ sketched (pr_simpl pr) Inflate (snd z) (snd z')) (jb_zones j) (map (fun x => (fst x, p_pts (snd x))) ss)).
    { clear - Fs. induction Fs as [|? ? ? ? (A & _ & B)]; cbn [map]; constructor; auto. }
    assert (Mz : forall q, Forall made (map snd (filter (fun x => Nat.eqb (fst x) q) ss))).
    { intros q. apply Forall_forall. intros s Hs. apply in_map_iff in Hs as (x & <- & Hx). apply filter_In in Hx as (Hx & _). auto. }
    assert (Em : forall q, map snd (filter (fun x => Nat.eqb (fst x) q) (map (fun x => (fst x, p_pts (snd x))) ss)) = map (@p_pts R) (map snd (filter (fun x => Nat.eqb (fst x) q) ss))).
    { intros q. clear. induction ss as [|x ss IH]; cbn [map filter]; [reflexivity|]. cbn [fst]. destruct (Nat.eqb (fst x) q); cbn [map snd]; rewrite IH; reflexivity. }
    assert (Qz' : forall z, In z (map (fun x => (fst x, p_pts (snd x))) ss) -> (fst z < 10)%nat).
    { intros z Hz. apply in_map_iff in Hz as (x & <- & Hx). exact (Qs x Hx). }
    destruct (pr_center pr).
    - unfold pretransform_bin in Ex. set (c := centering_transformation (N := RNum) outer) in *.
      change (compose (N := NM) (centering_transformation (N := NM) outer)) with (compose (N := RNum) c) in Ex. rewrite Bo, Bp, Bz, omap_some in Ex.
      assert (Qz2 : map fst (map (fun z : qzone R => (qz_quality z, map (fun s : arc R => tr_poly (N := NM) (compose (N := RNum) c) (a_obj s)) (qz_zones z))) zl) = seq 0 N_QUALITIES).
      { rewrite map_map. cbn [fst]. rewrite <- Qz, <- Bv, map_map. reflexivity. }
      destruct (fresh_inv _ _ _ _ _ _ _ _ Qz2 Ex) as (Ci & Co & _ & Cp & Ch & zl' & Cz & Cv).
      exists (dt_tx c), (dt_ty c), (p_pts outer), (map (@p_pts R) holes), (map (fun x => (fst x, p_pts (snd x))) ss). split; [|split; [reflexivity|]].
      + split; auto.
        * congruence.
        * rewrite Co. exact (at_shift_tr (dt_tx c) (dt_ty c) outer Mo).
        * rewrite Ch. pose proof (at_shift_all (dt_tx c) (dt_ty c) holes Mh) as K. rewrite <- Bh in K at 2. rewrite map_map in K. exact K.
        * exists zl'. split; [exact Cz|]. split.
          -- change (seq 0 10) with (seq 0 N_QUALITIES). rewrite <- Qz2, <- Cv, map_map. reflexivity.
          -- intros z Hz. rewrite Em. apply (in_map zview) in Hz. rewrite Cv in Hz. apply in_map_iff in Hz as (z0 & E0 & Hz0).
             injection E0 as E0 E0'. rewrite <- E0, <- E0'. apply (in_map zview) in Hz0. rewrite Bv in Hz0. specialize (Gs _ Hz0).
             cbn [zview fst snd] in Gs. rewrite <- Gs.
             pose proof (at_shift_all (dt_tx c) (dt_ty c) (map (@a_obj R) (qz_zones z0))) as K. rewrite map_map with (l := qz_zones z0) (g := tr_poly _) in K.
             apply K. rewrite Gs. apply Mz.
        * rewrite Cp. exact (proj1 (shift_once (dt_tx c) (dt_ty c))).
        * rewrite Cp. exact (proj2 (shift_once (dt_tx c) (dt_ty c))).
      + rewrite Co. exact (centred_tr outer (md_norm _ Mo)).
    - injection Ex as <-. exists 0, 0, (p_pts outer), (map (@p_pts R) holes), (map (fun x => (fst x, p_pts (snd x))) ss). split; [|auto].
      split; auto.
      + rewrite Bo. apply at_shift0. exact Mo.
      + rewrite Bh. apply at_shift0_all. exact Mh.
      + exists zl. split; [exact Bz|]. split; [change (seq 0 10) with (seq 0 N_QUALITIES); rewrite <- Qz, <- Bv, map_map; reflexivity|].
        intros z Hz. rewrite Em. apply (in_map zview) in Hz. rewrite Bv in Hz. specialize (Gs _ Hz). cbn [zview fst snd] in Gs. rewrite Gs. apply at_shift0_all. apply Mz.
      + rewrite Bp. exact (proj1 shift_empty).
      + rewrite Bp. exact (proj2 shift_empty).
  Qed.
End P.
