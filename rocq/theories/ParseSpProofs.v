(** From the instance file to the solution file: strip packing. *)
From Coq Require Import List Bool Arith ZArith Lia Permutation.
From Verif Require Import Base Num GeoModel HazardModel QTModel TransfModel HpgModel CdeModel CdeSpec
  PolyModel ParserModel SimplModel SlotMapModel LayoutModel ProblemModel ProblemSpec LbfModel IoModel ParseModel
  BaseProofs Instances ParityProofs PipProofs NormProofs XformProofs ConstructProofs RigidProofs RegionProofs RectPolyProofs LayoutProofs ProblemProofs ProblemOpsProofs StripProofs
  MirrorProofs LbfThmProofs LbfHistProofs FitProofs LbfProofs LbfRunProofs LbfBpProofs LbfStripThmProofs LbfSpProofs IoProofs IoThmProofs ParseProofs ParseThmProofs.
From Coq Require Import Reals Lra.
From Verif Require Import GeoModel HazardModel QTModel TransfModel HpgModel CdeModel CdeSpec GeoSpec PlaceSpec HpgSpec ShapeSpec SimplSpec LbfModel LbfSpec IoModel IoSpec ParseModel ParseSpec.
Import ListNotations.
Local Open Scope R_scope.
#[local] Existing Instance RTrig.

Section S.
  Variable M : R.
  Context {X : Extra R} {ED : EqD (dtransf R)} {BS : BSearch} {G : Type} {RG : Rng R G}.
  Hypothesis BSok : bsearch_ok BS.
  #[local] Instance NSP : Num R := RNumT Reqb M.
  Local Notation dtransf := (dtransf R).
  Local Notation bin := (bin R dtransf).
  Local Notation sp := (sp R dtransf).

  (** *** a strip that was just fitted *)
  Lemma strip_pre_eq : forall r c ptr (b : bin), bin_from_strip r c ptr = Ok b -> bn_pre b = transl_m (N := RNum) (x_min r) (y_min r).
  Proof.
    intros r c ptr b H. unfold bin_from_strip, bin_new in H. repeat (apply rbind_ok in H as (? & _ & H)). injection H as <-. reflexivity.
  Qed.
  Lemma LI_ordM : forall cat (l : layout R dtransf), LI cat l -> ord l.
  Proof.
    intros cat l (_ & (_ & H & _) & _). unfold ord. eapply Forall_impl; [|exact H]. intros pi (E & _). rewrite E. exact (bbox_ordered _).
  Qed.
  Lemma range_orderedM : forall (l : layout R dtransf) a b, ord l -> occupied_range l = Some (a, b) -> a <= b.
  Proof. intros l a b O E. apply (range_ordered l); [exact O|exact E]. Qed.
  Lemma fit_corner : forall inst tol (p p1 : sp) ptr, 0 <= tol -> sids_ok inst -> fine_items (si_items inst) -> SPInv M inst p ->
    fit_strip tol p ptr = Ok p1 -> exists r c ptr', bin_from_strip r c ptr' = Ok (ly_bin (sp_layout p1)) /\ x_min r <= x_max r /\ y_min r <= y_max r.
  Proof.
    intros inst tol p p1 ptr Ht Ids Gi Q H. unfold fit_strip in H. apply rbind_ok in H as (pz & H & Z). apply rbind_ok in Z as (? & _ & Z). injection Z as ->.
    assert (Y : y_min (strip_bbox p) <= y_max (strip_bbox p)).
    { pose proof (q_fine _ _ _ Q) as Bf. unfold bin_fine in Bf. rewrite Forall_forall in Bf.
      specialize (Bf _ (or_introl eq_refl)). cbn in Bf. pose proof (gs_proper _ Bf) as (P1 & P2). unfold strip_bbox. lra. }
    pose proof (LI_ordM _ _ (sm_layout _ _ _ (q_smi _ _ _ Q))) as Od.
    unfold modify_strip_centered, occupied_width in H. destruct (occupied_range (sp_layout p)) as [(a, b)|] eqn:Eo.
    - assert (Hab : a <= b) by exact (range_orderedM _ _ _ Od Eo). destruct (modify_SPInv M BSok _ _ _ _ _ Ids Gi Q H) as (_ & bb & _ & Eb & El & _). rewrite El.
      eexists _, _, _. split; [exact Eb|]. cbn [x_min x_max y_min y_max]. split; [|exact Y]. cbn. assert (0 <= (b - a) * tol) by (apply Rmult_le_pos; lra). lra.
    - destruct (modify_SPInv M BSok _ _ _ _ _ Ids Gi Q H) as (_ & bb & _ & Eb & El & _). rewrite El.
      eexists _, _, _. split; [exact Eb|]. cbn [x_min x_max y_min y_max]. split; [|exact Y]. cbn. lra.
  Qed.
  Lemma lbf_sp_corner : forall items hgt (inst : spinst R) fuel tol c cfg (g : G) ptr p s p2,
    spinst_new items hgt = Ok inst -> fine_items items -> 0 <= tol -> lbf_sp fuel tol inst c cfg g ptr = Ok (Some (p, s, p2)) ->
    exists sn r c ptr', so_layouts s = [sn] /\ bin_from_strip r c ptr' = Ok (ls_bin sn) /\ x_min r <= x_max r /\ y_min r <= y_max r.
  Proof.
    intros items hgt inst fuel tol c cfg g ptr p s p2 Hn Gi Ht H.
    pose proof (sinst_ids _ _ _ Hn) as Ids. destruct (lbf_sp_run M BSok _ _ _ false _ _ _ _ _ _ _ _ _ Hn H) as (p0 & ops & ptr' & p1 & E0 & C1 & R1 & Efit & Ec & _).
    assert (Ei : si_items inst = items) by (unfold spinst_new in Hn; apply rbind_ok in Hn as (u & _ & Hn); injection Hn as <-; reflexivity). rewrite <- Ei in Gi.
    pose proof (sp_new_SPInv M BSok _ _ _ _ _ E0) as Q0. unfold sp_run in R1. rewrite E0 in R1. cbn [rbind] in R1.
    destruct (srun_grows M BSok inst false tol Ids Gi _ _ _ _ Q0 C1 R1) as (Q1 & _).
    destruct (fit_corner _ _ _ _ _ Ht Ids Gi Q1 Efit) as (r & c0 & ptr0 & Eb & A & B).
    apply sp_create_spec in Ec as (sn & l & Es & _ & Esol & _).
    apply snapshot_content in Es as (_ & C2 & _). unfold content, snap_content in C2. injection C2 as _ B2 _.
    exists sn, r, c0, ptr0. split; [rewrite Esol; reflexivity|]. rewrite B2. auto.
  Qed.

  Variable umax : nat.
  Variable pr : parser R.
  Hypothesis Ht : tol_ok (pr_simpl pr).
  Hypothesis Ep : @fPI R X = PI.
  Local Notation tol := (pr_simpl pr).

  Lemma strip_shift : forall r c ptr (b : bin), bin_from_strip r c ptr = Ok b -> x_min r <= x_max r -> y_min r <= y_max r ->
    let bb := p_bbox (a_obj (bn_outer b)) in
    motion (bn_pre b) /\ shift_by (bn_pre b) (x_min bb) (y_min bb) /\
    at_shift (x_min bb) (y_min bb) (strip_outline (x_max bb - x_min bb) (y_max bb - y_min bb)) (a_obj (bn_outer b)).
  Proof.
    intros r c ptr b H Hx Hy. destruct (strip_pre M _ _ _ _ H) as (Mo & Bb). cbn zeta. rewrite Bb. cbn [x_min x_max y_min y_max].
    rewrite (Rmin_left (x_min r)), (Rmin_left (y_min r)), (Rmax_right (x_min r)), (Rmax_right (y_min r)) by assumption.
    split; [exact Mo|]. split; [rewrite (strip_pre_eq _ _ _ _ H); intros p; apply tr_transl|].
    destruct (strip_poly M _ _ _ _ H) as (Es & _). destruct (rect_pts _ _ Es) as (Nx & Ny & _ & Pr). split.
    - rewrite Pr by (split; lra). unfold strip_outline, shifted. cbn [map px py]. repeat (f_equal; try (rewrite ?Rplus_0_l; lra)).
    - unfold poly_of_rect in Es. exact (proj1 (new_made _ _ Es)).
  Qed.

  Theorem e2e_strip : forall j ptr inst pres, parse umax pr j ptr = Ok (ISP inst, pres) ->
    exists hgt fs, jn_strip j = Some hgt /\ Forall2 (item_of_file tol) (jn_items j) fs /\
      (clean_items fs -> 0 < hgt -> forall fuel tl c cfg (g : G) ptr' p s p', 0 <= tl -> lbf_sp fuel tl inst c cfg g ptr' = Ok (Some (p, s, p')) ->
       exists w pl u us, sp_export (pre_of pres) inst s = Ok (JS us [JL (JStrip w hgt) pl u]) /\ 0 < w /\
         packing fs (strip_outline w hgt) [] [] pl /\
         forall i ji, nth_error (jn_items j) i = Some ji -> length (filter (Nat.eqb i) (map fst pl)) = ji_demand ji).
  Proof.
    intros j ptr inst pres H. destruct (parse_inv M umax pr Ht Ep _ _ _ _ H) as (fs & I & hgt & _ & Es & Hn). cbn [inst_items] in *.
    exists hgt, fs. split; [exact Es|]. split; [exact (proj1 I)|]. intros Ci Hh fuel tl c cfg g ptr' p s p' Htl Hr.
    pose proof (items_fine M pr _ _ _ _ I Ci) as Fi. destruct (items_fit M pr _ _ _ _ I) as (Lf & Kf).
    destruct (lbf_sp_packs M BSok _ _ _ _ _ _ _ _ _ _ _ _ Hn Fi Hr) as (sn & Esn & Pk & Cn & Y1 & Y2 & _ & Gs).
    destruct (lbf_sp_corner _ _ _ _ _ _ _ _ _ _ _ _ Hn Fi Htl Hr) as (sn' & r & c0 & ptr0 & Esn' & Eb & A & B). rewrite Esn in Esn'. injection Esn' as <-.
    destruct (strip_shift _ _ _ _ Eb A B) as (Mo & Sh & At). cbn zeta in Sh, At. rewrite Rmin_left in Y1 by lra. rewrite Rmax_right in Y2 by lra.
    pose proof (gs_proper _ Gs) as (Px & Py).
    assert (Eh : si_height inst = hgt) by (unfold spinst_new in Hn; apply rbind_ok in Hn as (u & _ & Hn); injection Hn as <-; reflexivity).
    eexists (x_max (p_bbox (a_obj (bn_outer (ls_bin sn)))) - x_min (p_bbox (a_obj (bn_outer (ls_bin sn))))), _, _, _. split; [|split; [|split]].
    - unfold sp_export. rewrite export_ok.
      + rewrite Esn, Eh. cbn [map]. reflexivity.
      + rewrite Esn. cbn [map flat_map]. rewrite app_nil_r. apply Forall_forall. intros i Hi. destruct Pk as (_ & _ & _ & Tn).
        assert (Hs : exists d, In (i, d) (snap_placed sn)).
        { unfold c_list in Hi. cbn [snap_content snd] in Hi. apply in_map_iff in Hi as (pi & <- & Hi). exists (pi_dt pi). unfold snap_placed. apply in_map_iff. exists pi. auto. }
        destruct Hs as (d & Hs). destruct (Tn _ Hs) as (it & q & a & Ni & _). apply nth_error_Some_lt in Ni. exact Ni.
    - lra.
    - rewrite Y1, Y2 in At. rewrite Y1 in Sh. replace (hgt - 0) with hgt in At by lra.
      eapply (packed_packing M); [exact Lf|exact Kf|exact Mo|exact Sh|exact At|intros h []|intros q z []|exact Pk].
    - intros i ji Hj. destruct I as (_ & _ & _ & K). destruct (K i ji Hj) as (it & f & dx & dy & Hi & _). specialize (Cn _ _ _ Hi).
      replace (map fst _) with (map fst (snap_placed sn)) by (symmetry; exact (exported_ids M _ _ _)). unfold count, sol_items in Cn. rewrite Esn in Cn. cbn [flat_map] in Cn. rewrite app_nil_r in Cn. exact Cn.
  Qed.
End S.
