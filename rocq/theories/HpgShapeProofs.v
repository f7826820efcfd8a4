(** The proximity grid keeps its number of cells, and its cells keep an entry per quality. *)
From Coq Require Import List Bool Arith Lia.
From Verif Require Import Base Num GeoModel HazardModel QTModel TransfModel HpgModel CdeModel
  PolyModel SlotMapModel LayoutModel ProblemModel ProblemSpec BaseProofs ProblemProofs ProblemProofs ProblemOpsProofs MirrorProofs HpgGridProofs HpgRegProofs.
Import ListNotations.

Section G.
  Context {F : Type} {N : Num F} {D : Type} {ED : EqD D} {BS : BSearch} {DC : DComp F D}.
  Local Notation hazard := (hazard F D).
  Local Notation cell := (cell F D).
  Local Notation hpg := (hpg F D).
  Local Notation cde := (cde F D).
  Local Notation bin := (bin F D).
  Local Notation layout := (layout F D).
  Local Notation lsnap := (lsnap F D).

  Definition full_cell (o : option cell) : Prop := match o with Some c => length (c_qz c) = N_QUALITIES | None => True end.
  (** a grid like one with [n] places *)
  Definition gshape (n : nat) (g : grid F cell) : Prop := length (g_cells g) = n /\ Forall full_cell (g_cells g).
  Definition oshape (o : option nat) (g : option (grid F cell)) : Prop :=
    match o, g with Some n, Some g => gshape n g | None, None => True | _, _ => False end.

  Lemma hazard_keeps : forall c (h : hazard) c' u, cell_register_hazard c h = Ok (c', u) -> c_qz c' = c_qz c.
  Proof.
    intros c h c' u H. unfold cell_register_hazard in H. destruct (ent_position (h_ent h)); try discriminate.
    apply rbind_ok in H as (s & _ & H). apply rbind_ok in H as (d & _ & H).
    cbv zeta in H. destruct (flt _ _); injection H as <- <-; reflexivity.
  Qed.
  Lemma pole_keeps : forall c (h : hazard) k c' u, cell_register_pole c h k = Ok (c', u) -> c_qz c' = c_qz c.
  Proof.
    intros c h k c' u H. unfold cell_register_pole in H. destruct (ent_position (h_ent h)); try discriminate.
    cbv zeta in H. destruct (flt _ _); injection H as <- <-; reflexivity.
  Qed.
  Lemma loop_keeps : forall fuel c (l : list (hazard * option F)) c', register_loop fuel c l = Ok c' -> c_qz c' = c_qz c.
  Proof.
    induction fuel as [|fuel IH]; intros c l c' H; cbn [register_loop] in H; destruct (min_index l) as [[i [h bp]]|]; try discriminate; try (injection H as <-; reflexivity).
    destruct (match bp with None => true | Some b => fle b (fst (c_uni c)) end); [|injection H as <-; reflexivity].
    apply rbind_ok in H as ([c1 u] & E1 & H). apply rbind_ok in H as ([x l'] & _ & H). rewrite (IH _ _ _ H). exact (hazard_keeps _ _ _ _ E1).
  Qed.
  Lemma dereg_keeps : forall es rem (c c' : cell), cell_deregister es rem c = Ok c' -> c_qz c' = c_qz c.
  Proof.
    intros es rem c c' H. unfold cell_deregister in H. destruct (memb _ _ _); [|injection H as <-; reflexivity].
    unfold cell_register_hazards in H. apply rbind_ok in H as (l & _ & H). rewrite (loop_keeps _ _ _ _ H). reflexivity.
  Qed.
  Lemma fill_keeps : forall n fuel (h : hazard) k g b g', gshape n g -> fill_loop fuel h k g b = Ok g' -> gshape n g'.
  Proof.
    intros n. induction fuel as [|fuel IH]; intros h k g b g' G H; cbn [fill_loop] in H; apply rbind_ok in H as ([o b1] & _ & H); destruct o as [i|]; try discriminate; try (injection H as <-; exact G).
    apply rbind_ok in H as (o & Eo & H). apply expect_ok in Eo. destruct o as [c|].
    - apply rbind_ok in H as ([c' u] & E1 & H). cbv zeta in H. apply rbind_ok in H as (b2 & _ & H). apply IH in H; [exact H|]. destruct G as (G1 & G2). split; cbn [g_cells].
      + rewrite vset_length. exact G1.
      + apply Forall_vset; [|exact G2]. cbn [full_cell]. rewrite (pole_keeps _ _ _ _ _ E1). rewrite Forall_forall in G2. exact (G2 _ (nth_error_In _ _ Eo)).
    - apply rbind_ok in H as (b2 & _ & H). apply IH in H; [exact H|exact G].
  Qed.
  Lemma register_keeps : forall n (g : hpg) h g', gshape n (hg_grid g) -> hpg_register g h = Ok g' -> gshape n (hg_grid g').
  Proof.
    intros n g h g' G H. unfold hpg_register in H. apply rbind_ok in H as (s & _ & H). apply rbind_ok in H as (b & _ & H). apply rbind_ok in H as ([gr b'] & E & H). injection H as <-. cbn [hg_grid].
    revert G E. generalize (hg_grid g) b. induction (s_poles s) as [|k ks IH]; intros g0 b0 G E; cbn [rfold] in E; [injection E as <- <-; exact G|].
    apply rbind_ok in E as ([g1 b1] & E1 & E). refine (IH _ _ _ E). unfold hpg_register_pole in E1. apply rbind_ok in E1 as (b2 & _ & E1). apply rbind_ok in E1 as (g2 & E2 & E1). injection E1 as <- <-.
    eapply fill_keeps; [exact G|exact E2].
  Qed.
  Lemma cells_keep : forall n (f : cell -> res cell) g g', (forall c c', f c = Ok c' -> c_qz c' = c_qz c) -> gshape n g -> on_cells f g = Ok g' -> gshape n g'.
  Proof.
    intros n f g g' K (G1 & G2) H. unfold on_cells in H. apply rbind_ok in H as (cs & E & H). injection H as <-. unfold gshape. cbn [g_cells]. clear -K G1 G2 E. revert n cs G1 E.
    induction (g_cells g) as [|o l IH]; intros n cs G1 E; cbn [rmapM] in E; [injection E as <-; auto|].
    apply rbind_ok in E as (o' & Eo & E). apply rbind_ok in E as (cs' & Ec & E). injection E as <-. inversion G2 as [|? ? A B]; subst. destruct (IH B (length l) cs' eq_refl Ec) as (L & Fa). split; [cbn [length]; lia|].
    constructor; [|exact Fa]. destruct o as [c|].
    - apply rbind_ok in Eo as (c' & Ek & Eo). injection Eo as <-. cbn [full_cell] in *. rewrite (K _ _ Ek). exact A.
    - injection Eo as <-. exact Logic.I.
  Qed.
  Lemma deregister_keeps : forall n (g : hpg) e rem now g', gshape n (hg_grid g) -> hpg_deregister g e rem now = Ok g' -> gshape n (hg_grid g').
  Proof.
    intros n g e rem now g' G H. unfold hpg_deregister in H. destruct now; [|injection H as <-; exact G]. apply rbind_ok in H as (gr & E & H). injection H as <-.
    eapply cells_keep; [|exact G|exact E]. intros c c'. apply dereg_keeps.
  Qed.
  Lemma flush_keeps : forall n (g : hpg) rem g', gshape n (hg_grid g) -> hpg_flush g rem = Ok g' -> gshape n (hg_grid g').
  Proof.
    intros n g rem g' G H. unfold hpg_flush in H. destruct (hpg_dirty g); [|injection H as <-; exact G]. apply rbind_ok in H as (gr & E & H). injection H as <-.
    eapply cells_keep; [|exact G|exact E]. intros c c'. apply dereg_keeps.
  Qed.

  (** *** engines *)
  Definition cshape (o : option nat) (c : cde) : Prop := oshape o (option_map (@hg_grid F D) (cd_hpg c)).
  Lemma opt_keeps : forall o (f : hpg -> res hpg) g g', (forall n x y, gshape n (hg_grid x) -> f x = Ok y -> gshape n (hg_grid y)) ->
    oshape o (option_map (@hg_grid F D) g) -> opt_hpg f g = Ok g' -> oshape o (option_map (@hg_grid F D) g').
  Proof.
    intros o f g g' K G H. destruct g as [g|]; cbn [opt_hpg] in H.
    - apply rbind_ok in H as (y & E & H). injection H as <-. cbn [option_map] in *. destruct o as [n|]; [|destruct G]. exact (K n g y G E).
    - injection H as <-. exact G.
  Qed.
  Lemma cde_register_shape : forall o c h c', cshape o c -> cde_register c h = Ok c' -> cshape o c'.
  Proof.
    intros o c h c' G H. unfold cde_register in H. apply rbind_ok in H as ([[qt unc] h'] & _ & H). apply rbind_ok in H as (g & Eg & H). injection H as <-. unfold cshape. cbn [cd_hpg].
    eapply opt_keeps; [|exact G|exact Eg]. intros n x y. apply register_keeps.
  Qed.
  Lemma cde_deregister_shape : forall o c e b c', cshape o c -> cde_deregister c e b = Ok c' -> cshape o c'.
  Proof.
    intros o c e b c' G H. unfold cde_deregister in H. apply rbind_ok in H as (i & _ & H). apply rbind_ok in H as ([h dyn] & _ & H).
    destruct (if b then _ else _) as [qt unc]. apply rbind_ok in H as (g & Eg & H). injection H as <-. unfold cshape. cbn [cd_hpg].
    eapply opt_keeps; [|exact G|exact Eg]. intros n x y. apply deregister_keeps.
  Qed.
  Lemma cde_flush_shape : forall o c c', cshape o c -> cde_flush c = Ok c' -> cshape o c'.
  Proof.
    intros o c c' G H. unfold cde_flush in H. apply rbind_ok in H as (g & Eg & H). injection H as <-. unfold cshape. cbn [cd_hpg].
    eapply opt_keeps; [|exact G|exact Eg]. intros n x y. apply flush_keeps.
  Qed.
  Lemma cde_snapshot_shape : forall o c s c', cshape o c -> cde_snapshot c = Ok (s, c') -> cshape o c' /\ oshape o (sn_grid s).
  Proof.
    intros o c s c' G H. unfold cde_snapshot in H. apply rbind_ok in H as (c1 & E & H). apply rbind_ok in H as (u & _ & H). injection H as <- <-. cbn [sn_grid].
    unfold cde_commit in E. apply rbind_ok in E as (g & Eg & E). injection E as <-. unfold cshape. cbn [cd_hpg].
    assert (K : oshape o (option_map (@hg_grid F D) g)) by (eapply opt_keeps; [|exact G|exact Eg]; intros n x y; apply flush_keeps). auto.
  Qed.
  Lemma cde_restore_shape : forall o o' c s c', cshape o c -> oshape o' (sn_grid s) -> cde_restore c s = Ok c' -> cshape o c'.
  Proof.
    intros o o' c s c' G Gs H. unfold cde_restore in H. cbv zeta in H. destruct (fold_left restore_split _ _) as [rem add]. apply rbind_ok in H as ([qt1 dyn1] & _ & H).
    apply rbind_ok in H as ([[qt2 dyn2] add2] & _ & H). apply rbind_ok in H as ([qt3 dyn3] & _ & H). apply rbind_ok in H as (g & Eg & H). injection H as <-. unfold cshape in *. cbn [cd_hpg].
    destruct (cd_hpg c) as [g0|]; cbn [opt_hpg option_map] in *; [|injection Eg as <-; exact G]. apply rbind_ok in Eg as (g1 & E1 & Eg). injection Eg as <-. apply rbind_ok in E1 as (gr & Egr & E1). apply expect_ok in Egr.
    unfold hpg_restore in E1. destruct (Nat.eqb _ _) eqn:El; [|discriminate]. injection E1 as <-. cbn [option_map hg_grid]. destruct o as [n|]; [|destruct G]. cbn [oshape] in *. rewrite Egr in Gs. destruct o' as [n'|]; [|destruct Gs].
    apply Nat.eqb_eq in El. destruct G as (G1 & _), Gs as (_ & G2). split; [lia|exact G2].
  Qed.
  (** *** layouts *)
  Definition GL (l : layout) : Prop := exists o, cshape o (ly_cde l) /\ cshape o (bn_cde (ly_bin l)).
  Definition GS (s : lsnap) : Prop := exists o, oshape o (sn_grid (ls_cde s)) /\ cshape o (bn_cde (ls_bin s)).
  Lemma GL_new : forall id b o, cshape o (bn_cde b) -> GL (layout_new id b).
  Proof. intros id b o H. exists o. split; exact H. Qed.
  Lemma GL_clone : forall l id, GL l -> GL (clone_with_id l id).
  Proof. intros l id H. exact H. Qed.
  Lemma GL_place : forall (l l' : layout) it d ptr k, layout_place l it d ptr = Ok (k, l') -> GL l -> GL l'.
  Proof.
    intros l l' it d ptr k H (o & A & B). unfold layout_place in H. destruct (sm_insert _ _) as [k' m]. apply rbind_ok in H as (c & E & H). injection H as _ <-.
    exists o. split; [exact (cde_register_shape _ _ _ _ A E)|exact B].
  Qed.
  Lemma GL_remove : forall (l l' : layout) k b p, layout_remove l k b = Ok (p, l') -> GL l -> GL l'.
  Proof.
    intros l l' k b p H (o & A & B). unfold layout_remove in H. apply rbind_ok in H as ([p' m] & _ & H). apply rbind_ok in H as (c & E & H). injection H as _ <-.
    exists o. split; [exact (cde_deregister_shape _ _ _ _ _ A E)|exact B].
  Qed.
  Lemma GL_flush : forall (l l' : layout), layout_flush l = Ok l' -> GL l -> GL l'.
  Proof. intros l l' H (o & A & B). unfold layout_flush in H. apply rbind_ok in H as (c & E & H). injection H as <-. exists o. split; [exact (cde_flush_shape _ _ _ A E)|exact B]. Qed.
  Lemma GL_restore : forall (l l' : layout) s, layout_restore l s = Ok l' -> GL l -> GS s -> GL l'.
  Proof.
    intros l l' s H (o & A & B) (o' & C & _). unfold layout_restore in H. apply rbind_ok in H as (u & _ & H). apply rbind_ok in H as (c & E & H). injection H as <-.
    exists o. split; [exact (cde_restore_shape _ _ _ _ _ A C E)|exact B].
  Qed.
  Lemma GL_from_snapshot : forall s (l : layout), layout_from_snapshot s = Ok l -> GS s -> GL l.
  Proof. intros s l H G. eapply GL_restore; [exact H| |exact G]. destruct G as (o & _ & B). exists o. split; exact B. Qed.
  Lemma GL_snapshot : forall (l : layout) s l', layout_snapshot l = Ok (s, l') -> GL l -> GS s /\ GL l'.
  Proof.
    intros l s l' H (o & A & B). unfold layout_snapshot in H. apply rbind_ok in H as ([s0 c] & E & H). injection H as <- <-. destruct (cde_snapshot_shape _ _ _ _ A E) as (C & G).
    split; exists o; split; assumption.
  Qed.

  (** *** new grids *)
  Lemma static_keeps : forall cen (hs : list hazard) acc acc', rfold (cell_static_step cen) hs acc = Ok acc' -> length (snd acc') = length (snd acc).
  Proof.
    intros cen. induction hs as [|h hs IH]; intros [st qz] acc' H; cbn [rfold] in H; [injection H as <-; reflexivity|]. apply rbind_ok in H as (acc1 & E & H). rewrite (IH _ _ H). clear - E.
    unfold cell_static_step in E. apply rbind_ok in E as ([pos d] & _ & E). destruct (h_ent h); try discriminate; try (injection E as <-; reflexivity).
    apply rbind_ok in E as (cur & _ & E). injection E as <-. cbn [snd]. apply vset_length.
  Qed.
  Lemma cell_new_full : forall bb (sts : list hazard) c, cell_new bb sts = Ok c -> full_cell (Some c).
  Proof.
    intros bb sts c H. unfold cell_new in H. apply rbind_ok in H as ([st qz] & E & H). injection H as <-. cbn [full_cell c_qz]. apply static_keeps in E. cbn [snd] in E. rewrite E. apply repeat_length.
  Qed.
  Lemma put_full : forall rows cols els cells cells', (forall x, In x els -> full_cell (Some (fst x))) -> Forall full_cell cells ->
    rfold (grid_put rows cols) els cells = Ok cells' -> Forall full_cell cells'.
  Proof.
    induction els as [|[c p] els IH]; intros cells cells' Hf G H; cbn [rfold] in H; [injection H as <-; exact G|]. apply rbind_ok in H as (cs & E & H). eapply IH; [| |exact H].
    - intros x Hx. apply Hf. right. exact Hx.
    - unfold grid_put in E. destruct (bs (py (snd (c, p))) rows), (bs (px (snd (c, p))) cols); try discriminate. apply rbind_ok in E as (k & _ & E). destruct (Nat.ltb _ _); [|discriminate].
      injection E as <-. apply Forall_vset; [|exact G]. apply (Hf _ (or_introl eq_refl)).
  Qed.
  Lemma hpg_new_shape : forall bb sts n (g : hpg), hpg_new bb sts n = Ok g -> gshape (length (g_cells (hg_grid g))) (hg_grid g).
  Proof.
    intros bb sts n g H. unfold hpg_new in H. destruct n as [|n]; [discriminate|]. apply rbind_ok in H as (rects & _ & H). apply rbind_ok in H as (r0 & _ & H).
    apply rbind_ok in H as (els & Ee & H). apply rbind_ok in H as (gr & Eg & H). injection H as <-. split; [reflexivity|]. cbn [hg_grid]. unfold grid_new in Eg.
    apply rbind_ok in Eg as (cells & Ec & Eg). injection Eg as <-. cbn [g_cells]. eapply put_full; [| |exact Ec].
    - intros [c p] Hx. cbn [fst]. apply rmapM_F2 in Ee. destruct (F2_in_r _ _ _ _ Ee Hx) as (r & _ & Er). apply rbind_ok in Er as (c' & Ec' & Er). injection Er as <- _. exact (cell_new_full _ _ _ Ec').
    - apply Forall_forall. intros x Hx. apply repeat_spec in Hx. subst x. exact Logic.I.
  Qed.
  Lemma cde_new_shape : forall bb sts depth n (c : cde), cde_new bb sts depth n = Ok c -> exists o, cshape o c /\ (o = None <-> n = 0).
  Proof.
    intros bb sts depth n c H. unfold cde_new in H. apply rbind_ok in H as (g & Eg & H). apply rbind_ok in H as (qt & _ & H). injection H as <-. unfold cshape. cbn [cd_hpg]. destruct n as [|n].
    - injection Eg as <-. exists None. split; [exact Logic.I|tauto].
    - apply rbind_ok in Eg as (g' & E' & Eg). injection Eg as <-. exists (Some (length (g_cells (hg_grid g')))). split; [exact (hpg_new_shape _ _ _ _ E')|split; discriminate].
  Qed.
  (** the proximities of a full cell can be read *)
  Lemma proximity_total : forall c : cell, full_cell (Some c) -> exists d, hazard_proximity c None = Ok d.
  Proof.
    intros c H. unfold hazard_proximity. cbn [full_cell] in H.
    assert (K : forall ks p, (forall k, In k ks -> k < N_QUALITIES) -> exists d, rfold (fun p k => z <- expect (nth_error (c_qz c) k) ;; Ok (fmin p z)) ks p = Ok d).
    { induction ks as [|k ks IH]; intros p Hk; cbn [rfold]; [eauto|]. destruct (nth_error (c_qz c) k) as [z|] eqn:E.
      - cbn [expect rbind]. apply IH. intros j Hj. apply Hk. right. exact Hj.
      - exfalso. apply nth_error_None in E. specialize (Hk k (or_introl eq_refl)). lia. }
    apply K. intros k Hk. apply in_seq in Hk. lia.
  Qed.
End G.
