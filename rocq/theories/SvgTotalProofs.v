(** Layouts can be rebuilt from their snapshots, and the overlays of their drawings do not
    panic. *)
From Coq Require Import List Bool Arith ZArith Lia Permutation.
From Verif Require Import Base Num GeoModel HazardModel QTModel TransfModel HpgModel CdeModel CdeSpec
  PolyModel SlotMapModel LayoutModel ProblemModel ProblemSpec LbfModel SvgModel BaseProofs HazVecProofs QTProofs CdeProofs CdeOpsProofs CdeHistProofs CdeThmProofs SlotMapProofs ProblemProofs
  ProblemOpsProofs LayoutProofs MirrorProofs Instances RigidProofs XformProofs RegionProofs GeoPrimProofs GeoRectProofs QTGeoProofs CdeGeoProofs LbfSpec LbfProofs LbfRunProofs
  HpgShapeProofs SvgTreeProofs.
From Coq Require Import Reals Lra.
From Verif Require Import GeoModel HazardModel QTModel TransfModel HpgModel CdeModel CdeSpec GeoSpec PlaceSpec ShapeSpec LbfModel LbfSpec SvgModel.
Import ListNotations.

Section Any.
  Context {F : Type} {N : Num F} {D : Type} {ED : EqD D} {BS : BSearch} {DC : DComp F D}.
  Hypothesis BSok : bsearch_ok BS.
  Variable cat : nat -> poly F.
  Local Notation layout := (layout F D).
  Local Notation lsnap := (lsnap F D).

  Lemma from_snapshot_total : forall s : lsnap, SI cat s -> GS s -> exists l, layout_from_snapshot s = Ok l.
  Proof.
    intros s Ss (o & A & B). unfold layout_from_snapshot, layout_restore. cbn [layout_new ly_id ly_cde ly_bin]. rewrite Nat.eqb_refl. cbn [rassert rbind].
    pose proof (new_LI BSok cat (ls_id s) (ls_bin s) (proj1 Ss)) as (G & _ & [I1 I2 _ _ _ _]). cbn [layout_new ly_id ly_cde ly_bin] in *.
    destruct (cde_restore_ok BSok _ _ (bn_cde (ls_bin s)) (ls_cde s) I1) as (qt & dyn & -> & _).
    { rewrite I2. exact (SI_snap_ok cat s (ls_bin s) Ss G). }
    unfold cshape, oshape in *. destruct (cd_hpg (bn_cde (ls_bin s))) as [g|]; cbn [option_map opt_hpg] in *; [|cbn [rbind]; eauto].
    destruct o as [n|]; [|destruct B]. destruct (sn_grid (ls_cde s)) as [gr|]; [|destruct A]. cbn [expect rbind]. unfold hpg_restore.
    rewrite (proj1 A), (proj1 B), Nat.eqb_refl. cbn [rbind]. eauto.
  Qed.
  Lemma bin_cells : forall b : bin F D, good_bin b -> exists o, cshape o (bn_cde b) /\ (o = None <-> cfg_cells (bn_cfg b) = 0).
  Proof.
    intros b ((id & outer & value & pre & holes & zs & c & H) & _). apply bin_new_spec in H as (_ & _ & _ & _ & _ & H). exact (cde_new_shape _ _ _ _ _ H).
  Qed.
  Lemma shape_unique : forall o o' (c : cde F D), cshape o c -> cshape o' c -> (o = None <-> o' = None).
  Proof. intros o o' c H H'. unfold cshape, oshape in *. destruct o, o', (option_map _ _); try contradiction; split; intros E; try discriminate; reflexivity. Qed.
  Lemma layout_grid : forall l : layout, good_bin (ly_bin l) -> GL l -> cfg_cells (bn_cfg (ly_bin l)) <> 0 -> exists n g, cd_hpg (ly_cde l) = Some g /\ gshape n (hg_grid g).
  Proof.
    intros l Gb (o & A & B) Nc. destruct (bin_cells _ Gb) as (o' & C & Z). pose proof (shape_unique _ _ _ B C) as Q. destruct o as [n|]; [|exfalso; tauto].
    unfold cshape, oshape in A. destruct (cd_hpg (ly_cde l)) as [g|]; [|destruct A]. exists n, g. auto.
  Qed.
  Lemma cells_total : forall cs : list (option (cell F D)), Forall full_cell cs ->
    exists d, rmapM (fun c => d <- hazard_proximity c None ;; Ok (c_cen c, d)) (omap (fun c => c) cs) = Ok d.
  Proof.
    induction 1 as [|[c|] cs Hc _ (d & IH)]; cbn [omap rmapM]; [eauto| |exact (ex_intro _ d IH)]. destruct (proximity_total c Hc) as (x & ->). cbn [rbind]. rewrite IH. cbn [rbind]. eauto.
  Qed.
End Any.
Section Dt.
  Context {F : Type} {N : Num F} {T : Trig F} {ED : EqD (dtransf F)} {BS : BSearch} {DC : DComp F (dtransf F)}.
  Lemma grid_total : forall l : layout F (dtransf F), good_bin (ly_bin l) -> GL l -> cfg_cells (bn_cfg (ly_bin l)) <> 0 -> exists d, grid_data (ly_cde l) = Ok d.
  Proof.
    intros l Gb Gl Nc. destruct (layout_grid l Gb Gl Nc) as (n & g & E & _ & K). unfold grid_data. rewrite E. cbn [expect rbind]. apply cells_total. exact K.
  Qed.
End Dt.
Local Open Scope R_scope.
Section L.
  Variable M : R.
  #[local] Instance NLT : Num R := RNumT Reqb M.
  #[local] Existing Instance RTrig.
  Context {ED : EqD (dtransf R)} {BS : BSearch}.
  Hypothesis BSok : bsearch_ok BS.
  Variable items : list (item R * nat).
  Hypothesis Gi : fine_items items.
  Local Notation cat := (item_shape items).
  Local Notation layout := (layout R (dtransf R)).
  Theorem layout_tree : forall l : layout, LI cat l -> bin_fine (ly_bin l) -> known items l ->
    exists b, tree_data (cd_qt (ly_cde l)) ([], [], []) = Ok b /\ told (l_facts M items l) (cfg_depth (bn_cfg (ly_bin l))) (bin_box (ly_bin l)) b.
  Proof.
    intros l L Bf Kn. pose proof (l_framed M items l Bf) as Fr. pose proof (l_good M items Gi l Bf Kn) as Go.
    assert (So : sound_facts (l_facts M items l)) by (intros f Hf; apply good_sound, Go, Hf).
    pose proof L as (_ & _ & [I1 I2 I3 _ _ _]). pose proof (inv_repr _ _ _ I1) as Rp. cbn [fst] in I3.
    assert (Fa : Permutation (map fact_of (cd_static (ly_cde l) ++ cd_dyn (ly_cde l))) (l_facts M items l)).
    { rewrite (l_facts_eq M items l L), map_app, I2. apply Permutation_app_head. exact I3. }
    destruct (tree_told _ So (cfg_depth (bn_cfg (ly_bin l))) (bin_box (ly_bin l)) (qts (ly_cde l)) (cd_qt (ly_cde l)) ([], [], [])) as (b & E & T).
    - exact (proj1 Fr).
    - intros f Hf. eapply f_spread; eassumption.
    - split.
      + intros h Hh Ha. unfold qts in Hh. apply in_app_or in Hh as [Hh|Hh].
        * apply in_map_iff in Hh as (z & <- & Hz). exists (fact_of z). split; [eapply Permutation_in; [exact Fa|apply in_map; exact Hz]|].
          apply gok_root; [|reflexivity|reflexivity]. apply sound_wf. apply So. eapply Permutation_in; [exact Fa|apply in_map; exact Hz].
        * apply in_map_iff in Hh as (z & <- & _). discriminate.
      + intros f Hf. left. apply (Permutation_in f (Permutation_sym Fa)) in Hf as Hg. apply in_map_iff in Hg as (z & <- & Hz). exists (qth_of_hazard z).
        split; [unfold qts; apply in_or_app; left; apply in_map; exact Hz|]. split; [reflexivity|].
        apply gok_root; [|reflexivity|reflexivity]. apply sound_wf. apply So. exact Hf.
    - exact Rp.
    - exists b. split; [|exact T]. destruct b as [[? ?] ?]. exact E.
  Qed.
End L.
