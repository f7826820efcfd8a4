(** Layouts without proximity grids: no operation on them panics, in any arithmetic. *)
From Coq Require Import List Bool Arith ZArith Lia Permutation.
From Verif Require Import Base Num GeoModel HazardModel QTModel TransfModel HpgModel CdeModel CdeSpec
  PolyModel SlotMapModel LayoutModel ProblemModel ProblemSpec PanicSpec BaseProofs SlotMapProofs CdeHistProofs LayoutProofs ProblemProofs
  ProblemOpsProofs PanicProofs.
Import ListNotations.

Section PL.
  Context {F : Type} {N : Num F} {D : Type} {ED : EqD D} {BS : BSearch} {DC : DComp F D}.
  Hypothesis BSok : bsearch_ok BS.
  Local Notation item := (item F).
  Local Notation bin := (bin F D).
  Local Notation layout := (layout F D).
  Local Notation lsnap := (lsnap F D).
  Local Notation solution := (solution F D).
  Local Notation bp := (bp F D).
  Local Notation pitem := (pitem F D).
  Variable cat : nat -> poly F.
  Variable nb : nat.

  Definition plain_bin (b : bin) : Prop := cfg_cells (bn_cfg b) = 0 /\ bn_id b < nb.
  Definition PLay (l : layout) : Prop := LI cat l /\ plain_bin (ly_bin l) /\ cd_hpg (ly_cde l) = None.
  Definition PSn (s : lsnap) : Prop := SI cat s /\ plain_bin (ls_bin s).

  Lemma plain_cde : forall b : bin, good_bin b -> cfg_cells (bn_cfg b) = 0 -> cd_hpg (bn_cde b) = None.
  Proof.
    intros b ((id & outer & value & pre & holes & zs & c & H) & _) E. apply bin_new_spec in H as (_ & _ & _ & _ & _ & H). rewrite E in H.
    unfold cde_new in H. cbn [rbind] in H. apply rbind_ok in H as (qt & _ & H). injection H as <-. reflexivity.
  Qed.
  Lemma PL_new : forall id (b : bin), good_bin b -> plain_bin b -> PLay (layout_new id b).
  Proof. intros id b Gb Pb. split; [apply (new_LI BSok); exact Gb|]. split; [exact Pb|]. exact (plain_cde b Gb (proj1 Pb)). Qed.
  Lemma PL_place : forall l it d ptr, PLay l -> it_shape it = cat (it_id it) -> good_poly (shape_at cat (it_id it) d) -> ~ In (it_id it, d) (placed l) ->
    exists k l', layout_place l it d ptr = Ok (k, l') /\ PLay l'.
  Proof.
    intros l it d ptr (L & Pb & Hn) Es Gp Nd. set (p := pi_new it d ptr : pitem).
    assert (Fp : pi_fine cat p) by (split; cbn; rewrite Es; [reflexivity|exact Gp]).
    assert (Oo : op_ok (shpE cat) (bin_statics (ly_bin l)) (map pfact (sm_values (ly_items l)), []) (OReg (pi_hazard p))).
    { split; [exact (proj2 Fp)|]. split; [apply pi_denotes, Fp|]. split; [apply pi_not_static|]. cbn [fst]; rewrite pfact_ents; intros X. apply Nd.
      apply in_map_iff in X as (p' & E & Hp'). unfold pi_entity in E. cbn in E. injection E as E1 E2. unfold placed. rewrite <- E1, <- E2. apply in_map_iff. eauto. }
    destruct (step_total BSok _ _ _ _ _ _ _ _ (proj2 (proj2 L)) Oo Hn) as (c & sn & St & Hc). cbn [step] in St. apply rbind_ok in St as (c1 & Er & St). injection St as <- <-.
    destruct (sm_insert (ly_items l) p) as [k m] eqn:Ins.
    assert (El : layout_place l it d ptr = Ok (k, Ly (ly_id l) (ly_bin l) m c1)) by (unfold layout_place; fold p; rewrite Ins, Er; reflexivity).
    exists k. eexists. split; [exact El|]. split; [exact (place_LI BSok cat _ _ _ _ _ _ L Es Gp Nd El)|]. split; [exact Pb|exact Hc].
  Qed.
  Lemma PL_remove : forall l k b p m, PLay l -> sm_remove (ly_items l) k = Some (p, m) -> exists l', layout_remove l k b = Ok (p, l') /\ PLay l'.
  Proof.
    intros l k b p m (L & Pb & Hn) Er. pose proof L as (_ & Fi & Rel). destruct (remove_fine cat _ _ _ _ Fi Er) as (_ & Pm & _ & _).
    assert (Oo : op_ok (shpE cat) (bin_statics (ly_bin l)) (map pfact (sm_values (ly_items l)), []) (ODereg (pi_entity p) b)).
    { cbn [op_ok fst]. rewrite pfact_ents. eapply Permutation_in; [symmetry; apply (Permutation_map pi_entity Pm)|]. left. reflexivity. }
    destruct (step_total BSok _ _ _ _ _ _ _ _ Rel Oo Hn) as (c & sn & St & Hc). cbn [step] in St. apply rbind_ok in St as (c1 & Ed & St). injection St as <- <-.
    assert (El : layout_remove l k b = Ok (p, Ly (ly_id l) (ly_bin l) m c1)) by (unfold layout_remove; rewrite Er; cbn [expect rbind]; rewrite Ed; reflexivity).
    eexists. split; [exact El|]. split; [exact (remove_LI BSok cat _ _ _ _ _ L El)|]. split; [exact Pb|exact Hc].
  Qed.
  Lemma PL_flush : forall l, PLay l -> exists l', layout_flush l = Ok l' /\ PLay l'.
  Proof.
    intros l (L & Pb & Hn). destruct (step_total BSok _ _ _ _ _ _ _ OFlush (proj2 (proj2 L)) Logic.I Hn) as (c & sn & St & Hc). cbn [step] in St. apply rbind_ok in St as (c1 & Ed & St). injection St as <- <-.
    assert (El : layout_flush l = Ok (Ly (ly_id l) (ly_bin l) (ly_items l) c1)) by (unfold layout_flush; rewrite Ed; reflexivity).
    eexists. split; [exact El|]. split; [exact (flush_LI BSok cat _ _ L El)|]. split; [exact Pb|exact Hc].
  Qed.
  Lemma PL_snapshot : forall l, PLay l -> exists s l', layout_snapshot l = Ok (s, l') /\ PLay l' /\ PSn s.
  Proof.
    intros l (L & Pb & Hn). destruct (step_total BSok _ _ _ _ _ _ _ OSnap (proj2 (proj2 L)) Logic.I Hn) as (c & sn & St & Hc).
    cbn [step] in St. apply rbind_ok in St as ([s c'] & E & St). cbn [app] in St. injection St as <- <-. set (l' := Ly (ly_id l) (ly_bin l) (ly_items l) c').
    assert (El : layout_snapshot l = Ok (Ls (ly_id l) (ly_bin l) (ly_items l) s (layout_usage l'), l')) by (unfold layout_snapshot; rewrite E; reflexivity).
    destruct (snap_SI BSok cat _ _ _ L El) as (A & B). eexists. exists l'. split; [exact El|]. split; [split; [exact A|split; [exact Pb|exact Hc]]|]. split; [exact B|exact Pb].
  Qed.
  Lemma PL_restore : forall l s, PLay l -> PSn s -> ly_id l = ls_id s -> ly_bin l = ls_bin s -> exists l', layout_restore l s = Ok l' /\ PLay l'.
  Proof.
    intros l s (L & Pb & Hn) (Ss & _) Ei Eb. pose proof Ss as (_ & _ & P & Sd).
    pose proof (rel_add cat _ _ _ _ _ (proj2 (proj2 L)) (SI_snap_ok cat s _ Ss (proj1 L)) Sd P) as Rel.
    destruct (step_total BSok _ _ _ _ _ _ _ (ORestore 0) Rel ltac:(cbn; lia) Hn) as (c & sn & St & Hc). cbn [step nth_error expect rbind] in St. apply rbind_ok in St as (c1 & Ed & St). injection St as <- <-.
    assert (El : layout_restore l s = Ok (Ly (ly_id l) (ly_bin l) (ls_items s) c1)).
    { unfold layout_restore. rewrite Ei, Nat.eqb_refl. cbn [rassert rbind]. rewrite Ed, <- Ei. reflexivity. }
    eexists. split; [exact El|]. split; [exact (restore_LI BSok cat _ _ _ L Ss El)|]. split; [exact Pb|exact Hc].
  Qed.
  Lemma PL_from : forall s, PSn s -> exists l', layout_from_snapshot s = Ok l' /\ PLay l'.
  Proof. intros s H. apply (PL_restore (layout_new (ls_id s) (ls_bin s)) s); [|exact H|reflexivity|reflexivity]. apply PL_new; [exact (proj1 (proj1 H))|exact (proj2 H)]. Qed.
End PL.

Section Thm.
  Context {F : Type} {N : Num F} {D : Type} {ED : EqD D} {BS : BSearch} {DC : DComp F D}.
  Hypothesis BSok : bsearch_ok BS.
  Lemma plain_exact : forall (inst : bpinst F D) ovf ops p h o, good_inst inst -> Forall (fun b => cfg_cells (bn_cfg (fst b)) = 0) (bi_bins inst) ->
    bp_run ovf inst ops = Ok (p, h) -> bops_ok ovf (bp_new inst, []) ops -> bop_ok p o ->
    ((exists s', bstep ovf (p, h) o = Ok s') <-> possible ovf (latest ops) p h o).
  Proof.
    intros inst ovf ops p h o ((items0 & bins0 & Hi) & Gb) Nc Hr Ho Hb. pose proof (inst_ids _ _ _ Hi) as Ids. set (cat := item_shape (bi_items inst)).
    refine (run_exact inst Ids (PLay cat (length (bi_bins inst))) (PSn cat (length (bi_bins inst))) _ _ _ _ _ _ _ _ _ ovf ops p h o Hr Ho Hb).
    - intros l (_ & (_ & H) & _). exact H.
    - intros l id (L & Pb & Hn). split; [exact L|]. auto.
    - intros l it q d ptr Pl Ei Gp Nd. apply (PL_place BSok); auto. unfold cat, item_shape. rewrite Ei. reflexivity.
    - intros l k b q m Pl Er. exact (PL_remove BSok _ _ l k b q m Pl Er).
    - apply (PL_flush BSok).
    - apply (PL_snapshot BSok).
    - apply (PL_restore BSok).
    - apply (PL_from BSok).
    - intros t b n Eb. rewrite Forall_forall in Gb, Nc. apply nth_error_In in Eb as Hin. apply (PL_new BSok); [exact (Gb _ Hin)|]. split; [exact (Nc _ Hin)|].
      rewrite (proj2 Ids _ _ _ Eb). apply nth_error_Some. congruence.
  Qed.
End Thm.
