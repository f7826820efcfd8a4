(** Resizing the strip: which items stay (any arithmetic), and the width of the new
    strip (exact arithmetic). *)
From Coq Require Import List Bool Arith ZArith Lia Permutation Reals Lra.
From Verif Require Import Base Num GeoModel HazardModel QTModel TransfModel HpgModel CdeModel
  PolyModel SlotMapModel LayoutModel ProblemModel ProblemSpec BaseProofs CdeSpec SlotMapProofs ProblemProofs
  ProblemOpsProofs StripProofs LayoutProofs MirrorProofs ProblemThmProofs MirrorThmProofs.
Import ListNotations.

Section Fit.
  Context {F : Type} {N : Num F} {D : Type} {ED : EqD D} {BS : BSearch} {DC : DComp F D}.
  Hypothesis BSok : bsearch_ok BS.
  Hypothesis sym : @feq_sym F N.
  Local Notation sp := (sp F D).
  Local Notation layout := (layout F D).

  Lemma run_both : forall inst ovf tol w c ptr0 ops (p0 p : sp) h,
    good_sinst inst -> sp_new inst w c ptr0 = Ok p0 -> sops_ok ovf tol (p0, []) ops ->
    sp_run ovf tol inst w c ptr0 ops = Ok (p, h) -> sids_ok inst /\ SMI inst p h /\ SInv inst p h.
  Proof.
    intros inst ovf tol w c ptr0 ops p0 p h (items & hgt & Hi) E0 V H.
    pose proof (sinst_ids _ _ _ Hi) as Ids. split; [exact Ids|]. split.
    - unfold sp_run in H. rewrite E0 in H. cbn [rbind] in H.
      eapply srun_SMI; [exact BSok|exact sym|exact Ids| |exact V|exact H].
      unfold sp_new in E0. apply rbind_ok in E0 as (b & Eb & E0). injection E0 as <-.
      constructor; cbn [sp_inst sp_layout]; [reflexivity| |constructor].
      apply new_LI; [exact BSok|]. eapply strip_good; eassumption.
    - eapply srun_inv; eassumption.
  Qed.
  Lemma sp_modify : forall inst ovf tol w c ptr0 ops (p0 p : sp) h r ptr p',
    good_sinst inst -> sp_new inst w c ptr0 = Ok p0 -> sops_ok ovf tol (p0, []) ops ->
    sp_run ovf tol inst w c ptr0 ops = Ok (p, h) -> modify_strip p r ptr = Ok p' ->
    exists b keep, bin_from_strip r (bn_cfg (ly_bin (sp_layout p))) ptr = Ok b /\ ly_bin (sp_layout p') = b /\
      Permutation (placed (sp_layout p')) (filter keep (placed (sp_layout p))) /\
      (forall x, In x (placed (sp_layout p)) ->
        poly_collides (bn_cde b) (shape_at (item_shape (si_items inst)) (fst x) (snd x)) [] = Ok (negb (keep x))) /\
      forall i it q, nth_error (si_items inst) i = Some (it, q) ->
        nth_error (sp_missing p') i = Some (Z.of_nat q - Z.of_nat (copies i [sp_layout p']))%Z.
  Proof.
    intros inst ovf tol w c ptr0 ops p0 p h r ptr p' Gi E0 V H Hm.
    destruct (run_both _ _ _ _ _ _ _ _ _ _ Gi E0 V H) as (Ids & I & _).
    destruct (modify_keeps BSok sym _ _ _ _ _ _ Ids I Hm) as (b & keep & A & B & C & K).
    exists b, keep. split; [exact A|]. split; [exact B|]. split; [exact C|]. split; [exact K|].
    intros i it q Hn. destruct Gi as (items & hgt & Hi).
    assert (Ei : si_items inst = items).
    { unfold spinst_new in Hi. apply rbind_ok in Hi as (u & _ & Hi). injection Hi as <-. reflexivity. }
    rewrite Ei in Hn.
    eapply (sp_demand items hgt inst ovf tol w c ptr0 (ops ++ [SModify r ptr]) p' h i it q Hi); [|exact Hn].
    unfold sp_run in *. apply rbind_ok in H as (p00 & E1 & H). rewrite E1. cbn [rbind].
    rewrite rfold_app, H. cbn [rbind rfold sstep]. rewrite Hm. reflexivity.
  Qed.
  Lemma sp_fit : forall inst ovf tol w c ptr0 ops (p0 p : sp) h ptr p',
    good_sinst inst -> sp_new inst w c ptr0 = Ok p0 -> sops_ok ovf tol (p0, []) ops ->
    sp_run ovf tol inst w c ptr0 ops = Ok (p, h) -> fit_strip tol p ptr = Ok p' ->
    Permutation (placed (sp_layout p')) (placed (sp_layout p)).
  Proof.
    intros inst ovf tol w c ptr0 ops p0 p h ptr p' Gi E0 V H Hf.
    destruct (run_both _ _ _ _ _ _ _ _ _ _ Gi E0 V H) as (Ids & I & Iv).
    eapply fit_keeps; eassumption.
  Qed.
End Fit.

Section Width.
  Local Open Scope R_scope.
  Local Existing Instance RNum.
  Context {D : Type} {ED : EqD D} {BS : BSearch} {DC : DComp R D}.
  Local Notation sp := (sp R D).

  Lemma rect_bbox : forall (r : rect R) s, poly_of_rect r = Ok s ->
    p_bbox s = Rc (Rmin (x_min r) (x_max r)) (Rmin (y_min r) (y_max r))
                  (Rmax (x_min r) (x_max r)) (Rmax (y_min r) (y_max r)).
  Proof.
    intros r s H. unfold poly_of_rect, poly_new in H.
    apply rbind_ok in H as (? & _ & H). apply rbind_ok in H as (? & _ & H).
    destruct (_ =? _)%num; [discriminate|].
    destruct (_ <? _)%num;
      apply rbind_ok in H as (? & _ & H); apply rbind_ok in H as (? & _ & H); injection H as <-; cbn [p_bbox];
      cbv [rev app bbox_of_points fold_left grow_bbox px py x_min x_max y_min y_max fmin fmax RNum RNumT];
      f_equal; unfold Rmin, Rmax; repeat destruct (Rle_dec _ _); lra.
  Qed.
  Lemma bin_strip_bbox : forall r c ptr (b : bin R D), bin_from_strip r c ptr = Ok b ->
    p_bbox (a_obj (bn_outer b)) = Rc (Rmin (x_min r) (x_max r)) (Rmin (y_min r) (y_max r))
                  (Rmax (x_min r) (x_max r)) (Rmax (y_min r) (y_max r)).
  Proof.
    intros r c ptr b H. unfold bin_from_strip in H. apply rbind_ok in H as (s & Es & H).
    unfold bin_new in H. repeat (apply rbind_ok in H as (? & _ & H)). injection H as <-. cbn. apply rect_bbox; exact Es.
  Qed.
  Lemma modify_bbox : forall (p p' : sp) r ptr, modify_strip p r ptr = Ok p' -> x_min r <= x_max r -> y_min r <= y_max r ->
    strip_bbox p' = r.
  Proof.
    intros p p' r ptr H Hx Hy. unfold modify_strip in H.
    apply rbind_ok in H as (m & _ & H). apply rbind_ok in H as (b & Eb & H).
    apply replace_id in H as (_ & H). cbn [sp_layout layout_new ly_bin] in H.
    unfold strip_bbox. rewrite H, (bin_strip_bbox _ _ _ _ Eb).
    destruct r as [a b' c d]; cbn [x_min x_max y_min y_max] in *.
    rewrite !Rmin_left, !Rmax_right by assumption. reflexivity.
  Qed.
  Lemma bbox_ordered : forall l : list (point R), x_min (bbox_of_points l) <= x_max (bbox_of_points l).
  Proof.
    intros [|p l]; [cbn; lra|]. unfold bbox_of_points.
    assert (G : forall l (r : rect R), x_min r <= x_max r ->
              x_min (fold_left grow_bbox l r) <= x_max (fold_left grow_bbox l r)).
    { clear. induction l as [|q l IH]; intros r H; cbn [fold_left]; [exact H|].
      apply IH. cbn. unfold Rmin, Rmax. repeat destruct (Rle_dec _ _); lra. }
    apply G. cbn. lra.
  Qed.
  Lemma fold_range : forall (l : list (rect R)) a b, a <= b -> Forall (fun r => x_min r <= x_max r) l ->
    fold_left (fun m b => fmin m (x_min b)) l a <= fold_left (fun m b => fmax m (x_max b)) l b.
  Proof.
    induction l as [|r l IH]; intros a b H Fr; cbn [fold_left]; [exact H|].
    inversion Fr; subst. apply IH; [|assumption]. cbn. unfold Rmin, Rmax. repeat destruct (Rle_dec _ _); lra.
  Qed.
  (** bounding boxes of placed items are ordered *)
  Definition ord (l : layout R D) : Prop :=
    Forall (fun pi => x_min (p_bbox (a_obj (pi_shape pi))) <= x_max (p_bbox (a_obj (pi_shape pi)))) (sm_values (ly_items l)).
  Lemma range_ordered : forall (l : layout R D) a b, ord l -> occupied_range l = Some (a, b) -> a <= b.
  Proof.
    intros l a b H E. unfold occupied_range in E. unfold ord in H.
    destruct (sm_values (ly_items l)) as [|q vs]; cbn [map] in E; [discriminate|]. injection E as <- <-.
    inversion H; subst. apply fold_range; [assumption|].
    rewrite Forall_map. assumption.
  Qed.
  Lemma LI_ord : forall cat (l : layout R D), LI cat l -> ord l.
  Proof.
    intros cat l (_ & (_ & H & _) & _). unfold ord.
    eapply Forall_impl; [|exact H]. intros pi (E & _). rewrite E. apply bbox_ordered.
  Qed.
  Lemma modify_width : forall (p p' : sp) r ptr, modify_strip p r ptr = Ok p' -> x_min r <= x_max r ->
    x_min (strip_bbox p') = x_min r /\ x_max (strip_bbox p') = x_max r.
  Proof.
    intros p p' r ptr H Hx. unfold modify_strip in H.
    apply rbind_ok in H as (m & _ & H). apply rbind_ok in H as (b & Eb & H).
    apply replace_id in H as (_ & H). cbn [sp_layout layout_new ly_bin] in H.
    unfold strip_bbox. rewrite H, (bin_strip_bbox _ _ _ _ Eb). cbn [x_min x_max].
    rewrite Rmin_left, Rmax_right by assumption. split; reflexivity.
  Qed.
  Lemma back_width : forall (p p' : sp) w ptr, 0 <= w -> modify_strip_in_back p w ptr = Ok p' ->
    x_min (strip_bbox p') = x_min (strip_bbox p) /\ x_max (strip_bbox p') - x_min (strip_bbox p') = w.
  Proof.
    intros p p' w ptr Hw H. apply modify_width in H as (A & B); cbn in *; [rewrite A, B; lra|lra].
  Qed.
  Lemma front_width : forall (p p' : sp) w ptr, 0 <= w -> modify_strip_at_front p w ptr = Ok p' ->
    x_max (strip_bbox p') = x_max (strip_bbox p) /\ x_max (strip_bbox p') - x_min (strip_bbox p') = w.
  Proof.
    intros p p' w ptr Hw H. apply modify_width in H as (A & B); cbn in *; [rewrite A, B; lra|lra].
  Qed.
  Lemma centered_width : forall (p p' : sp) w ptr, 0 <= w -> modify_strip_centered p w ptr = Ok p' ->
    x_max (strip_bbox p') - x_min (strip_bbox p') = w.
  Proof.
    intros p p' w ptr Hw H. unfold modify_strip_centered, occupied_width in H.
    destruct (occupied_range (sp_layout p)) as [(a, b)|];
      (apply modify_width in H as (A & B); [rewrite A, B|]; cbn; lra).
  Qed.
  Lemma fit_width : forall cat (p p' : sp) tol ptr, 0 <= tol -> LI cat (sp_layout p) -> fit_strip tol p ptr = Ok p' ->
    x_max (strip_bbox p') - x_min (strip_bbox p') = occupied_width (sp_layout p) * (1 + tol).
  Proof.
    intros cat p p' tol ptr Ht L H. unfold fit_strip in H. apply rbind_ok in H as (q & H & E).
    apply rbind_ok in E as (? & _ & E). injection E as ->.
    apply centered_width in H; [exact H|]. cbn. apply Rmult_le_pos; [|lra].
    unfold occupied_width. destruct (occupied_range (sp_layout p)) as [(a, b)|] eqn:E; [|cbn; lra].
    apply range_ordered in E; [cbn; lra|]. eapply LI_ord; exact L.
  Qed.
  Lemma feq_sym_R : @feq_sym R RNum.
  Proof.
    intros a b. cbn. unfold Reqb. destruct (Req_EM_T a b), (Req_EM_T b a); congruence.
  Qed.
  Lemma sp_fit_width : forall (BSok : bsearch_ok BS) inst ovf tol w c ptr0 ops (p0 p : sp) h ptr p',
    good_sinst inst -> sp_new inst w c ptr0 = Ok p0 -> sops_ok ovf tol (p0, []) ops ->
    sp_run ovf tol inst w c ptr0 ops = Ok (p, h) -> 0 <= tol -> fit_strip tol p ptr = Ok p' ->
    x_max (strip_bbox p') - x_min (strip_bbox p') = occupied_width (sp_layout p) * (1 + tol).
  Proof.
    intros BSok inst ovf tol w c ptr0 ops p0 p h ptr p' Gi E0 V H Ht Hf.
    destruct (run_both BSok feq_sym_R _ _ _ _ _ _ _ _ _ _ Gi E0 V H) as (_ & I & _).
    eapply fit_width; [exact Ht|exact (sm_layout _ _ _ I)|exact Hf].
  Qed.
End Width.
