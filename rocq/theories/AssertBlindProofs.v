(** What the comparison of a problem with a solution does not notice; examples for the
    statements about debug builds of problems. *)
From Coq Require Import List Bool Arith ZArith Lia Permutation.
From Verif Require Import Base Num GeoModel HazardModel QTModel TransfModel HpgModel CdeModel CdeSpec
  PolyModel SlotMapModel LayoutModel ProblemModel ProblemSpec AssertModel AssertSpec AssertLayoutModel AssertLayoutSpec
  AssertProblemModel AssertProblemSpec
  BaseProofs SlotMapProofs LayoutProofs ProblemProofs ProblemOpsProofs MirrorProofs ProblemThmProofs AssertLayoutProofs AssertProblemProofs.
Import ListNotations.

Section BL.
  Context {F : Type} {N : Num F} {D : Type} {ED : EqD D} {BS : BSearch} {DC : DComp F D}.
  Hypothesis BSok : bsearch_ok BS.
  Local Notation bp := (bp F D).

  Lemma blind_items : forall (inst : bpinst F D) ops p h old s p1 i it d ptr r p2, checked_inst inst -> bops_ok true (bp_new inst, []) ops ->
    bp_run true inst ops = Ok (p, h) -> match old with Some s => In s h | None => True end -> bp_create p old = Ok (s, p1) ->
    bp_place p1 (PO (Real i) it d) ptr = Ok (r, p2) ->
    problem_matches (bp_layouts p2) s = Ok true /\
    exists l sn, nth_error (bp_layouts p2) i = Some l /\ find (fun x => Nat.eqb (ls_id x) (ly_id l)) (so_layouts s) = Some sn /\
      length (placed l) = S (length (snap_placed sn)).
  Proof.
    intros inst ops p h old s p1 i it d ptr r p2 C V R Ho Ec Ep. pose proof C as (((items & bins & Ei) & _) & _). apply inst_ids in Ei.
    destruct (brun_DB BSok inst ops _ _ Ei (new_DB BSok inst C) V) as (_ & K). destruct (K p h R) as [I _ _ _ _].
    destruct (create_inv _ _ _ _ _ _ I Ho Ec) as (I1 & _ & Same).
    unfold bp_place in Ep. cbn [po_layout po_item po_dt] in Ep. cbn [rbind] in Ep.
    apply rbind_ok in Ep as (l & El & Ep). apply expect_ok in El. apply rbind_ok in Ep as (im & Eim & Ep).
    apply rbind_ok in Ep as ([k l'] & Epl & Ep). apply rbind_ok in Ep as (m & Em & Ep). injection Ep as <- <-. cbn [bp_layouts].
    destruct (place_content _ _ _ _ _ _ Epl) as (P1 & P2 & P3).
    destruct (Same l (nth_error_In _ _ El)) as (sn & Es & Cn). unfold snap_content, content in Cn. injection Cn as C1 C2 C3.
    assert (Sm : sm_ok (ly_items l)).
    { apply (ci_sm _ _ (b_rec _ _ _ I1) (content l)). apply in_or_app. left. apply in_map, in_or_app. left. eapply nth_error_In, El. }
    pose proof (insert_perm (ly_items l) (pi_new im d ptr) Sm) as Pm. rewrite P3 in Pm. cbn [snd] in Pm.
    split.
    - apply matches_iff, Forall_vset; [|apply Forall_forall; intros x Hx; apply same_recorded, Same, Hx].
      exists sn. rewrite P1, P2. split; [exact Es|]. split; [rewrite C2; reflexivity|]. unfold snap_placed, placed. rewrite C3.
      intros x Hx. apply in_map_iff in Hx as (y & <- & Hy). apply in_map_iff. exists y. split; [reflexivity|].
      apply (Permutation_in _ (Permutation_sym Pm)). right. exact Hy.
    - exists l', sn. split; [|rewrite P1; split; [exact Es|]].
      + apply nth_error_vset_eq. apply nth_error_Some. rewrite El. discriminate.
      + unfold snap_placed, placed. rewrite !map_length, C3, (Permutation_length Pm). reflexivity.
  Qed.
  Lemma blind_layouts : forall (inst : bpinst F D) ops p h old s p1 i p2, checked_inst inst -> bops_ok true (bp_new inst, []) ops ->
    bp_run true inst ops = Ok (p, h) -> match old with Some s => In s h | None => True end -> bp_create p old = Ok (s, p1) ->
    bp_deregister_layout p1 (Real i) = Ok p2 ->
    problem_matches (bp_layouts p2) s = Ok true /\ S (length (bp_layouts p2)) = length (so_layouts s).
  Proof.
    intros inst ops p h old s p1 i p2 C V R Ho Ec Ep. pose proof C as (((items & bins & Ei) & _) & _). apply inst_ids in Ei.
    destruct (brun_DB BSok inst ops _ _ Ei (new_DB BSok inst C) V) as (_ & K). destruct (K p h R) as [I _ _ _ _].
    destruct (create_inv _ _ _ _ _ _ I Ho Ec) as (I1 & _ & Same).
    destruct (create_content _ _ _ _ _ _ I Ho Ec) as (sl & E1 & E2 & E3 & E4 & E5 & E6 & E7 & E8).
    unfold bp_deregister_layout in Ep. apply rbind_ok in Ep as ([l ls] & El & Ep). apply expect_ok in El.
    apply vremove_split in El as (a & b & Es & -> & _).
    apply rbind_ok in Ep as (bins' & _ & Ep). apply rbind_ok in Ep as (m & _ & Ep). injection Ep as <-. cbn [bp_layouts].
    split.
    - apply matches_iff, Forall_forall. intros x Hx. apply same_recorded, Same. rewrite Es. apply in_app_or in Hx as [Hx|Hx]; apply in_or_app; [left|right; right]; exact Hx.
    - assert (L : length (so_layouts s) = length (bp_layouts p1)).
      { rewrite <- E1, E2. rewrite !map_length. reflexivity. }
      rewrite L, Es, !app_length. cbn [length]. lia.
  Qed.
End BL.
