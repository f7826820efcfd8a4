(** The proximity grid of a shifted bin is the shifted grid: the grid can be built for the
    bin that is drawn. *)
From Coq Require Import List Bool Arith Lia Permutation.
From Verif Require Import Base Num GeoModel HazardModel QTModel TransfModel HpgModel CdeModel BaseProofs CdeSpec CdeOpsProofs CdeHistProofs GeoSpec ParityProofs PipProofs
  GeoPrimProofs NormProofs XformProofs RigidProofs RegionProofs PlaceSpec HpgSpec HpgGridProofs HpgFillProofs HpgCellProofs HpgRegProofs HpgHistProofs HpgGenProofs HpgThmProofs HpgFullProofs HpgTidyProofs HpgRectProofs.
From Coq Require Import Reals Lra.
From Verif Require Import GeoModel HazardModel QTModel TransfModel HpgModel CdeModel CdeSpec GeoSpec PlaceSpec HpgSpec.
Import ListNotations.
Local Open Scope R_scope.

Definition sh (dx dy : R) (p : rpoint) : rpoint := Pt (px p + dx) (py p + dy).
Lemma sh_rot : forall dx dy p, sh dx dy p = rot 1 0 dx dy p.
Proof. intros dx dy p. unfold sh, rot. f_equal; ring. Qed.
Lemma sh_map : forall dx dy l, map (sh dx dy) l = map (rot 1 0 dx dy) l.
Proof. intros. apply map_ext. intros p. apply sh_rot. Qed.
Lemma sh_dist : forall dx dy p q, edist (sh dx dy p) (sh dx dy q) = edist p q.
Proof. intros. unfold edist, sh. cbn [px py]. f_equal. ring. Qed.
Lemma sh_back : forall dx dy p, sh (- dx) (- dy) (sh dx dy p) = p.
Proof. intros dx dy [x y]. unfold sh. cbn [px py]. f_equal; ring. Qed.
Lemma sh_border : forall dx dy l p, on_border l p -> on_border (map (sh dx dy) l) (sh dx dy p).
Proof.
  intros dx dy l p (e & He & (t & Ht & ->)). exists (emap (rot 1 0 dx dy) e). split.
  - rewrite sh_map, ring_map. apply in_map. exact He.
  - exists t. split; [exact Ht|]. destruct e as [a b]. unfold emap, at_t, sh, rot. cbn [es ee px py]. f_equal; ring.
Qed.
Lemma sh_border_back : forall dx dy l p, on_border (map (sh dx dy) l) (sh dx dy p) -> on_border l p.
Proof.
  intros dx dy l p H. apply (sh_border (- dx) (- dy)) in H. rewrite sh_back, map_map in H.
  replace (map (fun x => sh (- dx) (- dy) (sh dx dy x)) l) with l in H; [exact H|]. rewrite <- (map_id l) at 1. apply map_ext. intros q. symmetry. apply sh_back.
Qed.
Lemma sh_even_odd : forall dx dy l p, even_odd (map (sh dx dy) l) (sh dx dy p) = even_odd l p.
Proof. intros. rewrite sh_map, sh_rot. apply even_odd_shift. Qed.
Lemma dist_unique : forall S p d d', distance_to S p d -> distance_to S p d' -> d = d'.
Proof. intros S p d d' ((q & Sq & E) & L) ((q' & Sq' & E') & L'). specialize (L q' Sq'). specialize (L' q Sq). lra. Qed.
Definition shr (dx dy : R) (r : rrect) : rrect := Rc (x_min r + dx) (y_min r + dy) (x_max r + dx) (y_max r + dy).

Section Shift.
  Context {D : Type} {ED : EqD D} {BS : BSearch}.
  Hypothesis BSok : bsearch_ok BS.
  Variable M : R.
  #[local] Instance NMh : Num R := RNumT Reqb M.
  Local Notation hazard := (hazard R D).
  Local Notation static_hazard := (@HpgSpec.static_hazard D).
  Variables dx dy : R.
  (** the same hazard, shifted *)
  Definition moved_hz (h h' : hazard) : Prop :=
    h_ent h' = h_ent h /\ p_pts (a_obj (h_shape h')) = map (sh dx dy) (p_pts (a_obj (h_shape h))).
  Definition signed (h : hazard) (p : rpoint) : res R :=
    '(pos, d) <- p_dist_border (a_obj (h_shape h)) p ;; Ok (if geopos_eqb pos (ent_position (h_ent h)) then fneg d else d).
  Lemma signed_moved : forall h h' p, static_hazard h -> static_hazard h' -> moved_hz h h' -> signed h' (sh dx dy p) = signed h p.
  Proof.
    intros h h' p (So & Ne & _) (So' & Ne' & _) (Ee & Ep).
    destruct (p_dist_border_ok _ p So Ne) as (pos & d & E & Di & Po). destruct (p_dist_border_ok _ (sh dx dy p) So' Ne') as (pos' & d' & E' & Di' & Po').
    assert (Ed : d' = d).
    { eapply dist_unique; [exact Di'|]. rewrite Ep. destruct Di as ((q & Bq & Eq) & Lq). split.
      - exists (sh dx dy q). split; [apply sh_border; exact Bq|]. rewrite sh_dist. exact Eq.
      - intros q0 Bq0. assert (Z : exists q1, q0 = sh dx dy q1) by (exists (sh (- dx) (- dy) q0); destruct q0 as [u v]; unfold sh; cbn [px py]; f_equal; ring).
        destruct Z as (q1 & ->). rewrite sh_dist. apply Lq. apply sh_border_back in Bq0. exact Bq0. }
    unfold signed. assert (E1 : p_dist_border (a_obj (h_shape h)) p = Ok (pos, d)) by exact E. rewrite E1.
    assert (E2 : p_dist_border (a_obj (h_shape h')) (sh dx dy p) = Ok (pos', d')) by exact E'. rewrite E2. cbn [rbind]. rewrite Ee, Ed.
    destruct Po as [B|Po].
    - assert (d = 0) as ->. { destruct Di as (_ & L). specialize (L p B). assert (edist p p = 0) as Z by (unfold edist; match goal with |- sqrt ?x = 0 => replace x with 0 by ring end; apply sqrt_0).
        destruct Di' as ((q & _ & Eq) & _). pose proof (edist_nonneg (sh dx dy p) q). lra. }
      f_equal. destruct (geopos_eqb pos' _), (geopos_eqb pos _); cbn [fneg NMh RNumT]; lra.
    - destruct Po' as [B|Po'].
      + rewrite Ep in B. apply sh_border_back in B. assert (d = 0) as ->.
        { destruct Di as ((q & _ & Eq) & L). specialize (L p B). assert (edist p p = 0) as Z by (unfold edist; match goal with |- sqrt ?x = 0 => replace x with 0 by ring end; apply sqrt_0).
          pose proof (edist_nonneg p q). lra. }
        f_equal. destruct (geopos_eqb pos' _), (geopos_eqb pos _); cbn [fneg NMh RNumT]; lra.
      + rewrite Ep, sh_even_odd in Po'. assert (pos' = pos) as -> by (destruct pos, pos', (even_odd (p_pts (a_obj (h_shape h))) p); intuition congruence). reflexivity.
  Qed.
  Lemma dist_moved : forall hs hs' p, Forall static_hazard hs -> Forall static_hazard hs' -> Forall2 moved_hz hs hs' ->
    distance_to_hazard (sh dx dy p) hs' = distance_to_hazard p hs.
  Proof.
    intros hs hs' p S S' F. unfold distance_to_hazard. f_equal. revert S S'.
    induction F as [|h h' hs hs' Hh F IH]; intros S S'; cbn [rmapM]; [reflexivity|]. inversion S; subst. inversion S'; subst.
    change ((' (pos, d) <- p_dist_border (a_obj (h_shape h')) (sh dx dy p);; Ok (if geopos_eqb pos (ent_position (h_ent h')) then fneg d else d))) with (signed h' (sh dx dy p)).
    change ((' (pos, d) <- p_dist_border (a_obj (h_shape h)) p;; Ok (if geopos_eqb pos (ent_position (h_ent h)) then fneg d else d))) with (signed h p).
    rewrite (signed_moved h h') by assumption. rewrite IH by assumption. reflexivity.
  Qed.
  Lemma attempt_moved : forall bb hs hs' n cf, Forall static_hazard hs -> Forall static_hazard hs' -> Forall2 moved_hz hs hs' ->
    gen_attempt (shr dx dy bb) hs' n cf = rmap (map (shr dx dy)) (gen_attempt bb hs n cf).
  Proof.
    intros bb hs hs' n cf S S' F. unfold gen_attempt.
    assert (W : r_width (shr dx dy bb) = r_width bb) by (unfold r_width, shr; cbn [x_min x_max fsub NMh RNumT]; ring).
    assert (H : r_height (shr dx dy bb) = r_height bb) by (unfold r_height, shr; cbn [y_min y_max fsub NMh RNumT]; ring).
    assert (Dm : gen_dim (shr dx dy bb) n cf = gen_dim bb n cf) by (unfold gen_dim; do 3 f_equal; unfold r_area, r_width, r_height, shr; cbn [x_min x_max y_min y_max fsub fmul NMh RNumT]; ring).
    cbv zeta. rewrite Dm, W, H. destruct (feq (gen_dim bb n cf) f0); [reflexivity|]. set (dim := gen_dim bb n cf). cbn zeta.
    generalize (fceilN (fdiv (r_width bb) dim)) (fceilN (fdiv (r_height bb) dim)) (fsqrt (fmul f2 (fsq (fdiv dim f2)))). intros nx ny cr.
    assert (Inner : forall i l acc, 
      rfold (fun acc j => d <- distance_to_hazard (r_centroid (Rc (fadd (x_min (shr dx dy bb)) (fmul dim (fofN i))) (fadd (y_min (shr dx dy bb)) (fmul dim (fofN j))) (fadd (fadd (x_min (shr dx dy bb)) (fmul dim (fofN i))) dim) (fadd (fadd (y_min (shr dx dy bb)) (fmul dim (fofN j))) dim))) hs' ;;
        Ok (if flt f0 (fadd d cr) then acc ++ [Rc (fadd (x_min (shr dx dy bb)) (fmul dim (fofN i))) (fadd (y_min (shr dx dy bb)) (fmul dim (fofN j))) (fadd (fadd (x_min (shr dx dy bb)) (fmul dim (fofN i))) dim) (fadd (fadd (y_min (shr dx dy bb)) (fmul dim (fofN j))) dim)] else acc)) l (map (shr dx dy) acc)
      = rmap (map (shr dx dy)) (rfold (fun acc j => d <- distance_to_hazard (r_centroid (Rc (fadd (x_min bb) (fmul dim (fofN i))) (fadd (y_min bb) (fmul dim (fofN j))) (fadd (fadd (x_min bb) (fmul dim (fofN i))) dim) (fadd (fadd (y_min bb) (fmul dim (fofN j))) dim))) hs ;;
        Ok (if flt f0 (fadd d cr) then acc ++ [Rc (fadd (x_min bb) (fmul dim (fofN i))) (fadd (y_min bb) (fmul dim (fofN j))) (fadd (fadd (x_min bb) (fmul dim (fofN i))) dim) (fadd (fadd (y_min bb) (fmul dim (fofN j))) dim)] else acc)) l acc)).
    { intros i. induction l as [|j l IH]; intros acc; cbn [rfold]; [reflexivity|].
      set (r := Rc (fadd (x_min bb) (fmul dim (fofN i))) (fadd (y_min bb) (fmul dim (fofN j))) (fadd (fadd (x_min bb) (fmul dim (fofN i))) dim) (fadd (fadd (y_min bb) (fmul dim (fofN j))) dim)).
      set (r' := Rc (fadd (x_min (shr dx dy bb)) (fmul dim (fofN i))) _ _ _).
      assert (Er : r' = shr dx dy r) by (unfold r, r', shr; cbn [x_min x_max y_min y_max fadd NMh RNumT]; f_equal; ring).
      rewrite Er. assert (Ec : r_centroid (shr dx dy r) = sh dx dy (r_centroid r)).
      { unfold r_centroid, shr, sh, f2. cbn [x_min x_max y_min y_max px py]. cbn [fadd fsub fdiv f1 NMh RNumT]. f_equal; field. }
      rewrite Ec, (dist_moved hs hs' _ S S' F). destruct (distance_to_hazard (r_centroid r) hs) as [d|]; [|reflexivity]. cbn [rbind].
      rewrite <- IH. destruct (flt f0 (fadd d cr)); [rewrite map_app|]; reflexivity. }
    assert (Outer : forall l acc,
      rfold (fun acc i => rfold (fun acc j => d <- distance_to_hazard (r_centroid (Rc (fadd (x_min (shr dx dy bb)) (fmul dim (fofN i))) (fadd (y_min (shr dx dy bb)) (fmul dim (fofN j))) (fadd (fadd (x_min (shr dx dy bb)) (fmul dim (fofN i))) dim) (fadd (fadd (y_min (shr dx dy bb)) (fmul dim (fofN j))) dim))) hs' ;;
        Ok (if flt f0 (fadd d cr) then acc ++ [Rc (fadd (x_min (shr dx dy bb)) (fmul dim (fofN i))) (fadd (y_min (shr dx dy bb)) (fmul dim (fofN j))) (fadd (fadd (x_min (shr dx dy bb)) (fmul dim (fofN i))) dim) (fadd (fadd (y_min (shr dx dy bb)) (fmul dim (fofN j))) dim)] else acc)) (seq 0 ny) acc) l (map (shr dx dy) acc)
      = rmap (map (shr dx dy)) (rfold (fun acc i => rfold (fun acc j => d <- distance_to_hazard (r_centroid (Rc (fadd (x_min bb) (fmul dim (fofN i))) (fadd (y_min bb) (fmul dim (fofN j))) (fadd (fadd (x_min bb) (fmul dim (fofN i))) dim) (fadd (fadd (y_min bb) (fmul dim (fofN j))) dim))) hs ;;
        Ok (if flt f0 (fadd d cr) then acc ++ [Rc (fadd (x_min bb) (fmul dim (fofN i))) (fadd (y_min bb) (fmul dim (fofN j))) (fadd (fadd (x_min bb) (fmul dim (fofN i))) dim) (fadd (fadd (y_min bb) (fmul dim (fofN j))) dim)] else acc)) (seq 0 ny) acc) l acc)).
    { induction l as [|i l IH]; intros acc; cbn [rfold]; [reflexivity|]. rewrite Inner. destruct (rfold _ (seq 0 ny) acc) as [acc'|]; [|reflexivity]. cbn [rmap rbind]. apply IH. }
    exact (Outer (seq 0 nx) []).
  Qed.
  Lemma generate_moved : forall bb hs hs' n, Forall static_hazard hs -> Forall static_hazard hs' -> Forall2 moved_hz hs hs' ->
    generate (shr dx dy bb) hs' n = rmap (map (shr dx dy)) (generate bb hs n).
  Proof.
    intros bb hs hs' n S S' F. unfold generate.
    assert (A : r_area (shr dx dy bb) = r_area bb) by (unfold r_area, r_width, r_height, shr; cbn [x_min x_max y_min y_max fsub fmul NMh RNumT]; ring).
    rewrite A. destruct (flt f0 (r_area bb)); [|reflexivity].
    generalize (f1 : R) (fdiv f1 (fofN 10) : R) (@None comparison). generalize MAX_ITERATIONS. induction n0 as [|k IH]; intros cf step pv; cbn [gen_loop];
      rewrite (attempt_moved bb hs hs' n cf S S' F); destruct (gen_attempt bb hs n cf) as [cells|]; cbn [rmap rbind]; try reflexivity.
    rewrite map_length. destruct (Nat.compare (length cells) n); [reflexivity|apply IH|apply IH].
  Qed.
  Lemma filter_moved : forall hs hs', Forall2 moved_hz hs hs' ->
    Forall2 moved_hz (filter (fun h => ent_universal (h_ent h)) hs) (filter (fun h => ent_universal (h_ent h)) hs').
  Proof.
    induction 1 as [|h h' hs hs' (E1 & E2) F IH]; cbn [filter]; [constructor|]. rewrite E1. destruct (ent_universal (h_ent h)); [constructor; [split; assumption|exact IH]|exact IH].
  Qed.
  Lemma hpg_moved : forall bb sts sts' n g, proper bb -> Forall static_hazard sts -> Forall static_hazard sts' -> Forall2 moved_hz sts sts' ->
    hpg_new bb sts n = Ok g -> exists g', hpg_new (shr dx dy bb) sts' n = Ok g'.
  Proof.
    intros bb sts sts' n g Pb St St' F H. assert (Nn : n <> 0%nat) by (intros ->; discriminate).
    unfold hpg_new in H. destruct n as [|n]; [congruence|]. apply rbind_ok in H as (rects & Eg & H). apply rbind_ok in H as (r0 & Er & _).
    eapply (hpg_new_total BSok M) with (rects := map (shr dx dy) rects); [exact St'|exact Nn| | |].
    - destruct Pb. unfold shr. split; cbn [x_min x_max y_min y_max]; lra.
    - change (generate (shr dx dy bb) (filter (fun h => ent_universal (h_ent h)) sts') (S n) = Ok (map (shr dx dy) rects)). 
      rewrite (generate_moved bb (filter (fun h => ent_universal (h_ent h)) sts)).
      + rewrite Eg. reflexivity.
      + apply incl_Forall with (2 := St). intros x Hx. apply filter_In in Hx. apply Hx.
      + apply incl_Forall with (2 := St'). intros x Hx. apply filter_In in Hx. apply Hx.
      + apply filter_moved. exact F.
    - destruct rects; [discriminate|discriminate].
  Qed.
End Shift.
