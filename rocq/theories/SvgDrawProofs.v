(** The bin that is drawn can be built. *)
From Coq Require Import List Bool Arith Lia Permutation.
From Verif Require Import Base Num GeoModel HazardModel QTModel TransfModel HpgModel CdeModel CdeSpec
  PolyModel ParserModel SimplModel SlotMapModel LayoutModel ProblemModel ProblemSpec LbfModel IoModel ParseModel SvgModel
  BaseProofs QTProofs CdeProofs CdeOpsProofs CdeHistProofs Instances ParityProofs PipProofs NormProofs XformProofs ConstructProofs RigidProofs RegionProofs RectPolyProofs LayoutProofs ProblemProofs ProblemOpsProofs
  GeoPrimProofs GeoRectProofs QTGeoProofs CdeGeoProofs IoProofs IoThmProofs ParseProofs SvgProofs SvgShiftProofs.
From Coq Require Import Reals Lra.
From Verif Require Import GeoModel HazardModel QTModel TransfModel HpgModel CdeModel CdeSpec GeoSpec PlaceSpec HpgSpec ShapeSpec SimplSpec LbfModel LbfSpec IoModel IoSpec ParseModel ParseSpec SvgModel SvgSpec.
Import ListNotations.
Local Open Scope R_scope.
#[local] Existing Instance RTrig.

Lemma box_sh : forall dx dy r l, smallest_box r l -> smallest_box (shr dx dy r) (map (sh dx dy) l).
Proof.
  intros dx dy r l (I & (p1 & P1 & E1) & (p2 & P2 & E2) & (p3 & P3 & E3) & (p4 & P4 & E4)).
  split; [|repeat split; [exists (sh dx dy p1)|exists (sh dx dy p2)|exists (sh dx dy p3)|exists (sh dx dy p4)]; (split; [apply in_map; assumption|cbn; lra])].
  intros p Hp. apply in_map_iff in Hp as (q & <- & Hq). specialize (I q Hq). unfold in_rect in *. cbn in *. lra.
Qed.
Lemma square_sh : forall dx dy r, inflate_to_square (N := RNum) (shr dx dy r) = shr dx dy (inflate_to_square (N := RNum) r).
Proof.
  intros dx dy [a b c d]. unfold inflate_to_square, shr. cbn [x_min y_min x_max y_max]. unfold fsub, fadd, fdiv, f2, f0, flt. cbn [RNum RNumT].
  replace (c + dx - (a + dx)) with (c - a) by ring. replace (d + dy - (b + dy)) with (d - b) by ring. f_equal; ring.
Qed.

Section Dr.
  Variable M : R.
  Context {X : Extra R} {ED : EqD (dtransf R)} {BS : BSearch}.
  Hypothesis BSok : bsearch_ok BS.
  #[local] Instance ND : Num R := RNumT Reqb M.
  Local Notation bin := (bin R (dtransf R)).
  Variable pr : parser R.
  Variables dx dy : R.
  Local Notation back := (sh (- dx) (- dy)).
  (** [a'] is [a] shifted back *)
  Definition homed (a a' : arc R) : Prop := p_pts (a_obj a') = map back (p_pts (a_obj a)) /\ made (a_obj a) /\ made (a_obj a').
  Lemma undo_sh : forall t p, motion t -> shift_by t dx dy -> tr_point (N := RNum) (t_inverse (N := RNum) t) p = back p.
  Proof.
    intros t p Mo Sh. replace p with (shifted dx dy (back p)) at 1 by (destruct p as [u v]; unfold shifted, sh; cbn [px py]; f_equal; ring).
    exact (undo t dx dy (back p) Mo Sh).
  Qed.
  Lemma homed_arc : forall t a q, motion t -> shift_by t dx dy -> made (a_obj a) -> homed a (Arc q (tr_poly (t_inverse t) (a_obj a))).
  Proof.
    intros t a q Mo Sh Ma. split; [|split; [exact Ma|]]; cbn [a_obj].
    - cbn [tr_poly p_pts]. apply map_ext. intros p. exact (undo_sh t p Mo Sh).
    - apply (made_tr (t_inverse (N := RNum) t)); [|exact Ma]. apply inv_affine. exact Mo.
  Qed.
  Lemma homed_objs : forall t l l', motion t -> shift_by t dx dy -> Forall (fun a => made (a_obj a)) l ->
    map (@a_obj R) l' = map (fun a => tr_poly (t_inverse t) (a_obj a)) l -> Forall2 homed l l'.
  Proof.
    intros t l l' Mo Sh. revert l'. induction l as [|a l IH]; intros [|a' l'] Fm E; try discriminate; constructor.
    - injection E as E _. destruct a' as [q s]. cbn [a_obj] in E. subst s. apply homed_arc; auto. inversion Fm; assumption.
    - injection E as _ E. apply IH; [inversion Fm; assumption|exact E].
  Qed.
  Definition homed_zone (z z' : qzone R) : Prop := qz_quality z' = qz_quality z /\ Forall2 homed (qz_zones z) (qz_zones z').
  Lemma homed_haz : forall e a a', homed a a' -> moved_hz (D := dtransf R) (- dx) (- dy) (hazard_new e a) (hazard_new e a').
  Proof. intros e a a' H. split; [reflexivity|exact (proj1 H)]. Qed.
  Lemma homed_arcs : forall mk l l', Forall2 homed l l' -> Forall2 (moved_hz (D := dtransf R) (- dx) (- dy)) (arcs_hazards mk l) (arcs_hazards mk l').
  Proof.
    intros mk l l' H. unfold arcs_hazards. generalize 0%nat. induction H as [|a a' l l' Ha H IH]; intros n; cbn [length seq combine map fst snd]; constructor; [apply homed_haz; exact Ha|apply IH].
  Qed.
  Lemma homed_statics : forall o o' hs hs' zs zs', homed o o' -> Forall2 homed hs hs' -> Forall2 homed_zone zs zs' ->
    Forall2 (moved_hz (D := dtransf R) (- dx) (- dy)) (bin_hazards o hs (map Some zs)) (bin_hazards o' hs' (map Some zs')).
  Proof.
    intros o o' hs hs' zs zs' Ho Hh Hz. unfold bin_hazards. rewrite !omap_some. constructor; [apply homed_haz; exact Ho|]. apply Forall2_app; [apply homed_arcs; exact Hh|].
    induction Hz as [|z z' zs zs' (Eq & Fz) Hz IH]; cbn [flat_map]; [constructor|]. apply Forall2_app; [|exact IH]. rewrite Eq. apply homed_arcs. exact Fz.
  Qed.
  (** all polygons of the list are made by the constructor, qualities are in range *)
  Definition fit (h : hazard R (dtransf R)) : Prop := made (a_obj (h_shape h)) /\ match h_ent h with PlacedItem _ _ => False | InferiorQualityZone q _ => (q < N_QUALITIES)%nat | _ => True end.
  Lemma fit_static : forall h, fit h -> static_hazard h.
  Proof. intros h (A & B). destruct (made_sound _ A) as (C & E). split; [exact C|]. split; [exact E|exact B]. Qed.
  Lemma fit_wf : forall h, fit h -> wf_hazard h.
  Proof. intros h (A & _). destruct (made_sound _ A) as (C & _). apply (sound_wf _ C). Qed.
  Lemma fit_arcs : forall mk l, Forall (fun a => made (a_obj a)) l -> (forall i, match mk i with PlacedItem _ _ => False | InferiorQualityZone q _ => (q < N_QUALITIES)%nat | _ => True end) ->
    Forall fit (arcs_hazards mk l).
  Proof.
    intros mk l H K. unfold arcs_hazards. generalize 0%nat. induction H as [|a l Ha H IH]; intros n; cbn [length seq combine map]; constructor; [|apply IH].
    split; [exact Ha|apply K].
  Qed.
  Lemma fit_statics : forall o hs zs, made (a_obj o) -> Forall (fun a => made (a_obj a)) hs -> Forall (fun z => (qz_quality z < N_QUALITIES)%nat /\ Forall (fun a => made (a_obj a)) (qz_zones z)) zs ->
    Forall fit (bin_hazards o hs (map Some zs)).
  Proof.
    intros o hs zs Ho Hh Hz. unfold bin_hazards. rewrite omap_some. constructor; [split; [exact Ho|exact Logic.I]|]. apply Forall_app. split; [apply fit_arcs; [exact Hh|intros i; exact Logic.I]|].
    induction Hz as [|z zs (Lq & Fz) Hz IH]; cbn [flat_map]; [constructor|]. apply Forall_app. split; [|exact IH]. apply fit_arcs; [exact Fz|intros i; exact Lq].
  Qed.
  Lemma homed_made : forall l l', Forall2 homed l l' -> Forall (fun a => made (a_obj a)) l /\ Forall (fun a => made (a_obj a)) l'.
  Proof. induction 1 as [|a a' l l' (_ & A & B) H (I1 & I2)]; split; constructor; auto. Qed.
  Lemma moved_ents : forall l l' : list (hazard R (dtransf R)), Forall2 (moved_hz (- dx) (- dy)) l l' -> map (@h_ent R (dtransf R)) l' = map (@h_ent R (dtransf R)) l.
  Proof. induction 1 as [|h h' l l' (E & _) H IH]; cbn [map]; [reflexivity|]. rewrite E, IH. reflexivity. Qed.

  Lemma built : forall o o' hs hs' zs zs' depth n c, homed o o' -> Forall2 homed hs hs' -> Forall2 homed_zone zs zs' ->
    Forall (fun z => (qz_quality z < N_QUALITIES)%nat) zs -> NoDup (map (@h_ent R (dtransf R)) (bin_hazards o hs (map Some zs))) ->
    cde_new (D := dtransf R) (inflate_to_square (p_bbox (a_obj o))) (bin_hazards o hs (map Some zs)) depth n = Ok c ->
    exists c', cde_new (D := dtransf R) (inflate_to_square (p_bbox (a_obj o'))) (bin_hazards o' hs' (map Some zs')) depth n = Ok c'.
  Proof.
    intros o o' hs hs' zs zs' depth n c Ho Hh Hz Lq Nd H.
    pose proof (homed_statics _ _ _ _ _ _ Ho Hh Hz) as Mv. destruct (homed_made _ _ Hh) as (Mh & Mh').
    assert (Fz : Forall (fun z => (qz_quality z < N_QUALITIES)%nat /\ Forall (fun a => made (a_obj a)) (qz_zones z)) zs /\ Forall (fun z => (qz_quality z < N_QUALITIES)%nat /\ Forall (fun a => made (a_obj a)) (qz_zones z)) zs').
    { clear - Hz Lq. induction Hz as [|z z' zs zs' (Eq & Fz) Hz IH]; [split; constructor|]. inversion Lq as [|? ? L1 L2]; subst. destruct (IH L2) as (I1 & I2). destruct (homed_made _ _ Fz) as (A & B).
      split; constructor; auto. rewrite Eq. auto. }
    pose proof (fit_statics _ _ _ (proj1 (proj2 Ho)) Mh (proj1 Fz)) as Ft. pose proof (fit_statics _ _ _ (proj2 (proj2 Ho)) Mh' (proj2 Fz)) as Ft'.
    assert (Bx : inflate_to_square (p_bbox (a_obj o')) = shr (- dx) (- dy) (inflate_to_square (p_bbox (a_obj o)))).
    { etransitivity; [|apply square_sh]. apply (f_equal (inflate_to_square (N := RNum))). destruct Ho as (Ep & Mo & Mo').
      apply (box_unique _ _ (p_pts (a_obj o'))); [apply Mo'|]. rewrite Ep. apply box_sh. apply Mo. }
    destruct (cde_new_ok (D := dtransf R) BSok depth (inflate_to_square (p_bbox (a_obj o'))) (bin_hazards o' hs' (map Some zs')) n) as (qt & -> & _).
    - eapply Forall_impl; [|exact Ft']. apply fit_wf.
    - unfold ents. rewrite (moved_ents _ _ Mv). exact Nd.
    - destruct n as [|n]; [cbn [rbind]; eauto|]. unfold cde_new in H. apply rbind_ok in H as (g & Eg & _). apply rbind_ok in Eg as (g' & Eg & _).
      destruct (hpg_moved (D := dtransf R) BSok M (- dx) (- dy) (inflate_to_square (p_bbox (a_obj o))) (bin_hazards o hs (map Some zs)) (bin_hazards o' hs' (map Some zs')) (S n) g') as (g2 & E2).
      + apply (inflate_proper _ (md_proper _ (proj1 (proj2 Ho)))).
      + eapply Forall_impl; [|exact Ft]. apply fit_static.
      + eapply Forall_impl; [|exact Ft']. apply fit_static.
      + exact Mv.
      + exact Eg.
      + rewrite Bx. match goal with |- context [hpg_new ?a ?b ?c] => replace (hpg_new a b c) with (Ok g2) by (symmetry; exact E2) end. cbn [rbind]. eauto.
  Qed.

  Lemma shifts_made : forall os ss, Forall2 (at_shift dx dy) os ss -> Forall made ss.
  Proof. induction 1 as [|o s os ss (_ & A) H IH]; constructor; assumption. Qed.
  Lemma objs_made : forall l : list (arc R), Forall made (map (@a_obj R) l) -> Forall (fun a => made (a_obj a)) l.
  Proof. intros l H. rewrite Forall_map in H. exact H. Qed.
  Lemma no_repeat_seq : no_repeat (seq 0 10) = true.
  Proof. reflexivity. Qed.
  Theorem drawn_total : forall b c ptr, good_bin b -> bin_at b dx dy c -> exists b', drawn_bin pr b ptr = Ok b'.
  Proof.
    intros b c ptr Gb A. pose proof (bin_nodup b Gb) as Nd. pose proof (ba_motion _ _ _ _ A) as Mo. pose proof (ba_pre _ _ _ _ A) as Sh.
    destruct Gb as ((id & outer & value & pre & holes & zs & cf & Hb) & _). apply bin_new_spec in Hb as (_ & _ & _ & _ & _ & Hc).
    assert (Ho : forall q, homed (bn_outer b) (Arc q (tr_poly (t_inverse (bn_pre b)) (a_obj (bn_outer b))))) by (intros q; apply homed_arc; [exact Mo|exact Sh|apply (ba_outer _ _ _ _ A)]).
    assert (Hh : forall q, Forall2 homed (bn_holes b) (alloc q (map (fun h => tr_poly (t_inverse (bn_pre b)) (a_obj h)) (bn_holes b)))).
    { intros q. apply (homed_objs (bn_pre b)); [exact Mo|exact Sh|apply objs_made, (shifts_made _ _ (ba_holes _ _ _ _ A))|]. apply alloc_objs. }
    unfold drawn_bin, pretransform_bin, fresh_bin, bin_new. cbn [with_cfg pr_cfg]. unfold bin_statics, bin_box in *.
    destruct (ba_zones _ _ _ _ A) as [(Ez & Ec)|(l & Ez & Q & _ & Fz)]; rewrite Ez in *.
    - cbn [repeat omap map alloc_zones fold_left fst no_repeat forallb rassert rbind].
      change (zone_array []) with (@repeat (option (qzone R)) None 10).
      match goal with |- context [cde_new ?bx (bin_hazards ?o' ?hs' ?z) ?d ?n] => destruct (built (bn_outer b) o' (bn_holes b) hs' [] [] d n (bn_cde b)) as (c' & E) end;
        [apply Ho|apply Hh|constructor|constructor|exact Nd|exact Hc|].
      cbn [a_obj] in *. setoid_rewrite E. cbn [rbind]. eauto.
    - rewrite omap_some. set (f := fun z : qzone R => (qz_quality z, map (fun s => tr_poly (t_inverse (bn_pre b)) (a_obj s)) (qz_zones z))).
      set (zs' := alloc_zones _ (map f l)). assert (Ev : map zview zs' = map f l) by apply alloc_zones_view.
      assert (Eq : map (@qz_quality R) zs' = seq 0 10).
      { apply (f_equal (map fst)) in Ev. rewrite !map_map in Ev. cbn [zview f fst] in Ev. rewrite <- Q. exact Ev. }
      rewrite (zone_array_full _ Eq). rewrite Eq, no_repeat_seq. cbn [rassert rbind].
      assert (Lz : forallb (fun z : qzone R => Nat.ltb (qz_quality z) N_QUALITIES) zs' = true).
      { apply forallb_forall. intros z Hz. apply Nat.ltb_lt. apply (in_map (@qz_quality R)) in Hz. rewrite Eq in Hz. apply in_seq in Hz. unfold N_QUALITIES. lia. }
      rewrite Lz. cbn [rassert rbind].
      assert (Hz : Forall2 homed_zone l zs').
      { assert (Fm : Forall (fun z => Forall (fun a => made (a_obj a)) (qz_zones z)) l).
        { rewrite Forall_forall. intros z Iz. apply objs_made. eapply shifts_made. exact (Fz z Iz). }
        clear - Ev Fm Mo Sh. revert Ev. clearbody zs'. revert zs'. induction Fm as [|z l Hz Fm IH]; intros [|z' zs'] E; try discriminate; constructor.
        - injection E as E1 E2 _. split; [exact E1|]. apply (homed_objs (bn_pre b)); assumption.
        - injection E as _ _ E. apply IH. exact E. }
      match goal with |- context [cde_new ?bx (bin_hazards ?o' ?hs' ?z) ?d ?n] => destruct (built (bn_outer b) o' (bn_holes b) hs' l zs' d n (bn_cde b)) as (c' & E) end;
        [apply Ho|apply Hh|exact Hz| |exact Nd|exact Hc|].
      + rewrite Forall_forall. intros z Iz. apply (in_map (@qz_quality R)) in Iz. rewrite Q in Iz. apply in_seq in Iz. unfold N_QUALITIES. lia.
      + cbn [a_obj] in *. setoid_rewrite E. cbn [rbind]. eauto.
  Qed.
End Dr.
