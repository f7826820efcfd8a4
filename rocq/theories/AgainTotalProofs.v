(** Taking items out of problems, putting them back and solving again: when this cannot fail. *)
From Coq Require Import List Bool Arith ZArith Lia Permutation.
From Verif Require Import Base Num GeoModel HazardModel QTModel TransfModel HpgModel CdeModel CdeSpec
  PolyModel SlotMapModel LayoutModel ProblemModel ProblemSpec PanicSpec LbfModel BaseProofs HazVecProofs SlotMapProofs ProblemProofs
  ProblemOpsProofs ProblemThmProofs LayoutProofs MirrorProofs MirrorThmProofs FitProofs Instances HullProofs HpgSpec HpgHistProofs LbfSpec LbfProofs LbfRunProofs LbfHistProofs LbfBpProofs LbfThmProofs LbfBpTotalProofs StripProofs LbfSpProofs HistPackSpec HistPackProofs ReachProofs
  AgainModel AgainSpec AgainProofs AgainStripProofs PanicProofs PanicGridProofs LbfSpTotalProofs.
From Coq Require Import Reals Lra.
From Verif Require Import GeoModel HazardModel QTModel TransfModel HpgModel CdeModel CdeSpec GeoSpec PlaceSpec HpgSpec ShapeSpec LbfModel LbfSpec HistPackSpec AgainModel AgainSpec PanicSpec.
Import ListNotations.
Local Open Scope nat_scope.

Section A.
  Variable M : R.
  #[local] Instance NAT : Num R := RNumT Reqb M.
  #[local] Existing Instance RTrig.
  Context {ED : EqD (dtransf R)} {BS : BSearch} {G : Type} {RG : Rng R G} {X : Extra R}.
  Hypothesis BSok : bsearch_ok BS.
  Local Notation dtransf := (dtransf R).
  Local Notation layout := (layout R dtransf).
  Local Notation bp := (bp R dtransf).
  Local Notation sp := (sp R dtransf).
  Local Notation solution := (solution R dtransf).

  Lemma valid_spread : forall ovf ops (s : bp * list solution), bops_ok ovf s ops -> all_spread ovf s ops.
  Proof.
    induction ops as [|o ops IH]; intros s H; cbn [bops_ok all_spread] in *; [exact Logic.I|]. destruct H as (H1 & H2). split.
    - destruct o as [po ptr| | | | |]; cbn in *; auto. intros l El. rewrite El in H1. exact (proj2 H1).
    - destruct (bstep ovf s o) as [s'|]; [exact (IH s' H2)|exact Logic.I].
  Qed.
  Lemma valid_sspread : forall ovf tol ops (s : sp * list solution), sops_ok ovf tol s ops -> all_sspread ovf tol s ops.
  Proof.
    induction ops as [|o ops IH]; intros s H; cbn [sops_ok all_sspread] in *; [exact Logic.I|]. destruct H as (H1 & H2). split.
    - destruct o; cbn in *; auto. exact (proj2 H1).
    - destruct (sstep ovf tol s o) as [s'|]; [exact (IH s' H2)|exact Logic.I].
  Qed.

  Section B.
    Variables (items : list (item R * nat)) (bins : list (bin R dtransf * nat)) (inst : bpinst R dtransf) (ovf : bool).
    Hypothesis Hn : bpinst_new items bins = Ok inst.
    Hypothesis Snd : Forall (fun x => sound_item M (fst x)) items.
    Hypothesis Gb : Forall (fun b => good_bin (fst b)) bins.
    Hypothesis Fb : fine_bins bins.
    Definition hist (ops : list (bop dtransf)) (p : bp) (h : list solution) : Prop := bchecked ovf (bp_new inst, []) ops /\ bp_run ovf inst ops = Ok (p, h).
    Lemma Fi : fine_items items.
    Proof. exact (Gi M items Snd). Qed.
    Lemma hist_facts : forall ops p h, hist ops p h -> bi_items inst = items /\ bi_bins inst = bins /\ ids_ok inst /\ HPI M inst p h /\ bops_ok ovf (bp_new inst, []) ops.
    Proof. intros ops p h (C & R0). exact (bin_history M BSok items bins inst ovf ops p h Hn Gb Fi Fb C R0). Qed.
    Lemma hist_grid : forall ops p h, hist ops p h -> Forall (GL M items) (bp_layouts p) /\ Forall (GL M items) (bp_templates p) /\
      forall o, spread p o -> ((exists s', bstep ovf (p, h) o = Ok s') <-> possible ovf (latest ops) p h o).
    Proof. intros ops p h H. destruct (hist_facts ops p h H) as (_ & _ & _ & _ & Bo). exact (grid_both M BSok items bins inst ovf ops p h Hn Snd Gb Fb (proj2 H) (valid_spread ovf ops _ Bo)). Qed.
    Lemma hist_add : forall ops o p h p' h', hist ops p h -> match o with BPlace o _ => checked p o | _ => True end -> bstep ovf (p, h) o = Ok (p', h') -> hist (ops ++ [o]) p' h'.
    Proof.
      intros ops o p h p' h' (C & R0) Ch E. split.
      - apply (bchecked_app M); [exact C|]. intros s' E'. pose proof (eq_trans (eq_sym E') R0) as Z. injection Z as ->. cbn [bchecked fst]. split; [exact Ch|].
        match goal with |- match ?x with _ => _ end => destruct x; exact Logic.I end.
      - unfold bp_run in *. rewrite rfold_app, R0. cbn [rbind rfold]. rewrite E. reflexivity.
    Qed.
    Lemma hist_does : forall ops o p h, hist ops p h -> match o with BPlace _ _ => False | _ => True end -> possible ovf (latest ops) p h o ->
      exists p' h', bstep ovf (p, h) o = Ok (p', h') /\ hist (ops ++ [o]) p' h'.
    Proof.
      intros ops o p h H No P. destruct (hist_grid ops p h H) as (_ & _ & K). destruct (proj2 (K o ltac:(destruct o; [contradiction|exact Logic.I..])) P) as ([p' h'] & E). exists p', h'.
      split; [exact E|]. apply (hist_add ops o p h); [exact H|destruct o; [contradiction|exact Logic.I..]|exact E].
    Qed.

    (** *** taking items out *)
    Lemma drop_does : forall n ops (p : bp) h (g : G), hist ops p h -> n <= length (items_in (bp_layouts p)) -> exists r, drop_bp n p g = Ok r.
    Proof.
      induction n as [|n IH]; intros ops p h g H Hl; cbn [drop_bp]; [eauto|]. destruct (hist_facts _ _ _ H) as (_ & _ & _ & I & _).
      destruct (bp_layouts p) as [|l0 ls0] eqn:El; [cbn in Hl; lia|]. rewrite <- El in *. destruct (g_index g (length (bp_layouts p))) as [j g1].
      assert (Lj : j mod length (bp_layouts p) < length (bp_layouts p)) by (apply Nat.mod_upper_bound; rewrite El; discriminate).
      set (j' := j mod length (bp_layouts p)) in *. destruct (nth_lt _ _ Lj) as (l & Ej). rewrite Ej. cbn [expect rbind].
      destruct (some_key l g1) as [k g2] eqn:Ek. destruct k as [k|]; [|eauto].
      pose proof (some_key_in _ _ _ _ Ek) as Hk. apply in_map_iff in Hk as ([k' x] & Ek' & Hx). cbn [fst] in Ek'. subst k'.
      destruct (hist_does ops (BRemove (Real j') k false) p h H Logic.I) as (p1 & h1 & E & H1); [exists j', l, x; auto|]. cbn [bstep] in E.
      apply rbind_ok in E as ([o p2] & Er & E). injection E as <- <-. rewrite Er. cbn [rbind].
      destruct (remove_shrunk M _ _ _ _ _ _ _ _ (hp_mi _ _ _ _ I) Er) as (_ & i & Pm). apply Permutation_length in Pm. cbn [length] in Pm.
      apply (IH _ p2 h g2 H1). lia.
    Qed.
    Lemma drop_iff : forall ops n (p : bp) h (g : G), hist ops p h -> ((exists r, drop_bp n p g = Ok r) <-> n <= length (items_in (bp_layouts p))).
    Proof.
      intros ops n p h g H. split; [|exact (drop_does n ops p h g H)]. intros (r & E). destruct (Nat.le_gt_cases n (length (items_in (bp_layouts p)))) as [L|L]; [exact L|].
      destruct H as (C & R0). rewrite (proj1 (drop_any_bp M BSok items bins inst ovf ops n p h g Hn Gb Fi Fb C R0) L) in E. discriminate.
    Qed.

    (** *** solving *)
    Hypothesis Pow : sane_extra X.
    Hypothesis Nc : Forall (fun b => cfg_cells (bn_cfg (fst b)) <> 0) bins.
    Hypothesis Hull : hulls_constructible items.
    Definition readable_bp (p : bp) : Prop := Forall (fun l => dirtyc (ly_cde l) = false) (bp_layouts p).
    Lemma hist_TIH : forall ops p h, hist ops p h -> no_more_than items (bp_layouts p) -> readable_bp p -> TIH M inst (h := h) p.
    Proof.
      intros ops p h H Nm Rd. destruct (hist_facts _ _ _ H) as (Ei & Eb & Ids & I & _). destruct (hist_grid _ _ _ H) as (Gl & Gt & _). pose proof (hp_inv _ _ _ _ I) as Bi.
      assert (Fb' : fine_bins (bi_bins inst)) by (rewrite Eb; exact Fb). pose proof (HPI_PInv M _ _ _ Fb' I) as Pi. split; [exact Bi|]. split; [exact Pi|]. split.
      - intros i x Ex. destruct (b_miss _ _ _ Bi) as (Lm & _ & Km). assert (Hi : i < length (bi_items inst)) by (rewrite <- Lm; exact (lt_nth _ _ _ Ex)).
        destruct (nth_lt _ _ Hi) as ([it q] & Eit). rewrite (Km i it q Eit) in Ex. injection Ex as <-. rewrite Ei in Eit. specialize (Nm i it q Eit). unfold copies in Nm. lia.
      - destruct Pi as [_ Pb _ _]. apply Forall_app in Pb as (Pl & Pt). rewrite Ei.
        assert (Cl : forall l, In (ly_bin l) (map fst (bi_bins inst)) -> cfg_cells (bn_cfg (ly_bin l)) <> 0).
        { intros l Hl. rewrite Eb in Hl. apply in_map_iff in Hl as (b & <- & Hb). rewrite Forall_forall in Nc. exact (Nc b Hb). }
        split; rewrite Forall_forall in *; intros l Hl.
        + apply GL_HL; [exact (Gl l Hl)|exact (Cl l (proj2 (Pl l Hl)))|]. unfold readable_bp in Rd. rewrite Forall_forall in Rd. exact (Rd l Hl).
        + rewrite (b_tmpl _ _ _ Bi) in Hl. cbn [bp_new bp_templates] in Hl. apply in_map_iff in Hl as ([j [b q]] & <- & Hb). apply in_combine_r in Hb.
          cbn [fst snd]. rewrite Eb in Hb. unfold fine_bins in Fb. rewrite Forall_forall in Fb. apply (HL_new M BSok items); [exact (Gb _ Hb)|exact (Fb _ Hb)|exact (Nc _ Hb)].
    Qed.
    Lemma solve_does : forall ops (p : bp) h cfg (g : G) ptr, hist ops p h -> no_more_than items (bp_layouts p) -> readable_bp p -> lc_local cfg <= lc_samples cfg ->
      exists p' s g' ptr', solve_bp cfg p g ptr = Ok (p', s, g', ptr').
    Proof.
      intros ops p h cfg g ptr H Nm Rd Lc. pose proof (hist_TIH ops p h H Nm Rd) as T. destruct (hist_facts _ _ _ H) as (Ei & Eb & Ids & I & _). pose proof (hp_inv _ _ _ _ I) as Bi.
      assert (Snd' : Forall (fun x => sound_item M (fst x)) (bi_items inst)) by (rewrite Ei; exact Snd).
      destruct (order_total M inst) as (order & Eo); [rewrite Ei; exact Hull|]. pose proof (order_perm M _ _ Eo) as Pm.
      destruct (fills_total M BSok Pow inst Ids Snd' (h := h) cfg Lc order p g ptr) as (p1 & g1 & ptr1 & E1 & T1); [|exact T|].
      { intros i Hi. apply (Permutation_in _ Pm) in Hi. apply in_seq in Hi. lia. }
      destruct (create_total M BSok inst p1 T1) as (s & p2 & Es). unfold solve_bp. rewrite (b_inst _ _ _ Bi).
      assert (Eo' : item_order (bi_items inst) = Ok order) by exact Eo. rewrite Eo'. cbn [rbind].
      assert (E1' : rfold (bp_fill_item cfg) order (p, g, ptr) = Ok (p1, g1, ptr1)) by exact E1. rewrite E1'. cbn [rbind].
      assert (Es' : bp_create p1 None = Ok (s, p2)) by exact Es. rewrite Es'. cbn [rbind]. eauto.
    Qed.
    Lemma flush_does : forall ops (p : bp) h, hist ops p h -> exists p', bp_flush p = Ok p' /\ hist (ops ++ [BFlush]) p' h /\ readable_bp p' /\ map content (bp_layouts p') = map content (bp_layouts p).
    Proof.
      intros ops p h H. destruct (hist_does ops BFlush p h H Logic.I Logic.I) as (p' & h' & E & H'). cbn [bstep] in E. apply rbind_ok in E as (p2 & E & Z). injection Z as <- <-.
      exists p2. split; [exact E|]. split; [exact H'|]. destruct (hist_grid _ _ _ H) as (Gl & _ & _). unfold bp_flush in E. apply rbind_ok in E as (ls & Ef & E). injection E as <-.
      cbn [bp_layouts] in *. split; [|apply flush_all_content; exact Ef]. unfold readable_bp. cbn [bp_layouts]. unfold flush_all in Ef. clear - Gl Ef BSok. revert ls Ef.
      induction Gl as [|l ls0 Hl _ IH]; intros ls Ef; cbn [rmapM] in Ef; [injection Ef as <-; constructor|].
      apply rbind_ok in Ef as (l' & El & Ef). apply rbind_ok in Ef as (ls' & Els & Ef). injection Ef as <-. constructor; [|exact (IH _ Els)].
      destruct (GL_flush M BSok items l Hl) as (l2 & E2 & _ & _ & D). assert (E2' : layout_flush l = Ok l2) by exact E2. rewrite El in E2'. injection E2' as ->. exact D.
    Qed.
    Lemma twice_iff : forall n cfg (g rng : G) ptr, 0 < lc_samples cfg -> lc_local cfg <= lc_samples cfg ->
      exists p1 s1 g1 ptr1, solve_bp cfg (bp_new inst) g ptr = Ok (p1, s1, g1, ptr1) /\ ((exists r, twice_bp n cfg inst g rng ptr = Ok r) <-> n <= length (sol_items s1)).
    Proof.
      intros n cfg g rng ptr Ls Lc. assert (H0 : hist [] (bp_new inst) []) by (split; [exact Logic.I|reflexivity]).
      destruct (solve_does [] (bp_new inst) [] cfg g ptr H0) as (p1 & s1 & g1 & ptr1 & E1); [intros i it q _; cbn; lia|constructor|exact Lc|]. exists p1, s1, g1, ptr1. split; [exact E1|].
      destruct H0 as (C0 & R0). destruct (solve_any_bp M BSok items bins inst ovf cfg [] (bp_new inst) [] g ptr p1 s1 g1 ptr1 Hn Gb Fi Fb C0 R0 E1) as ((o1 & C1 & R1) & _ & K1 & _ & D1).
      cbn [app] in *. assert (H1 : hist o1 p1 [s1]) by (split; assumption).
      assert (Le : length (sol_items s1) = length (items_in (bp_layouts p1))) by (rewrite sol_items_c, items_in_c, K1; reflexivity). rewrite Le.
      unfold twice_bp. rewrite (proj2 (Nat.ltb_lt 0 (lc_samples cfg)) Ls). cbn [rassert rbind]. rewrite E1. cbn [rbind]. split.
      - intros (r & E). apply rbind_ok in E as (d & E & _). apply (drop_iff o1 n p1 [s1] rng H1). eauto.
      - intros Ln. destruct (drop_does n o1 p1 [s1] rng H1 Ln) as ([p2 rng'] & Ed). rewrite Ed. cbn [rbind].
        destruct (proj2 (drop_any_bp M BSok items bins inst ovf o1 n p1 [s1] rng Hn Gb Fi Fb C1 R1) _ _ Ed) as ((ks & _ & R2) & _ & (out & _ & Pm) & _).
        assert (H2 : hist (o1 ++ map (fun x => BRemove (Real (fst x)) (snd x) false) ks) p2 [s1]).
        { split; [apply (bchecked_app M); [exact C1|]; intros s' _; apply (removes_checked M)|exact R2]. }
        destruct (flush_does _ p2 [s1] H2) as (p3 & Ef & H3 & Rd & Ec). rewrite Ef. cbn [rbind].
        destruct (solve_does _ p3 [s1] cfg g1 ptr1 H3) as (p4 & s2 & g2 & ptr2 & E4); [|exact Rd|exact Lc|rewrite E4; cbn [rbind]; eauto].
        intros i it q Hi. destruct (D1 i it q Hi) as (B & _). cbn in B. unfold copies in *. rewrite items_in_c, Ec, <- items_in_c. rewrite (count_perm _ _ _ Pm), count_app in B. lia.
    Qed.
  End B.

  Section S.
    Variables (items : list (item R * nat)) (hgt : R) (inst : spinst R) (ovf : bool) (tol w : R) (c : cfg) (ptr0 : nat) (p0 : sp).
    Hypothesis Hn : spinst_new items hgt = Ok inst.
    Hypothesis Snd : Forall (fun x => sound_item M (fst x)) items.
    Hypothesis E0 : sp_new inst w c ptr0 = Ok p0.
    Definition shist (ops : list (sop R dtransf)) (p : sp) (h : list solution) : Prop := schecked_run ovf tol (p0, []) ops /\ rfold (sstep ovf tol) ops (p0, []) = Ok (p, h).
    Lemma Fs : fine_items items.
    Proof. exact (Gi M items Snd). Qed.
    Lemma shist_facts : forall ops p h, shist ops p h -> si_items inst = items /\ HSI M inst p h /\ sops_ok ovf tol (p0, []) ops.
    Proof. intros ops p h (C & R0). exact (strip_history M BSok items hgt inst ovf tol w c ptr0 ops p0 p h Hn Fs E0 C R0). Qed.
    Lemma shist_grid : forall ops p h, shist ops p h -> GL M items (sp_layout p) /\ forall o P, sspread p o -> spossible ovf p h o = Some P -> ((exists s', sstep ovf tol (p, h) o = Ok s') <-> P).
    Proof. intros ops p h H. destruct (shist_facts ops p h H) as (_ & _ & So). exact (grid_strip_both M BSok items hgt inst ovf tol w c ptr0 ops p0 p h Hn Snd E0 (proj2 H) (valid_sspread ovf tol ops _ So)). Qed.
    Lemma shist_app : forall ops b p h p' h', shist ops p h -> schecked_run ovf tol (p, h) b -> rfold (sstep ovf tol) b (p, h) = Ok (p', h') -> shist (ops ++ b) p' h'.
    Proof.
      intros ops b p h p' h' (C & R0) Cb Eb. split.
      - apply (schecked_app M); [exact C|]. intros s' E'. pose proof (eq_trans (eq_sym E') R0) as Z. injection Z as ->. exact Cb.
      - rewrite rfold_app, R0. exact Eb.
    Qed.
    Lemma shist_does : forall ops o p h P, shist ops p h -> match o with SPlace o _ => schecked p o /\ ~ In (po_item o, po_dt o) (placed (sp_layout p)) | _ => True end ->
      spossible ovf p h o = Some P -> P -> exists p' h', sstep ovf tol (p, h) o = Ok (p', h') /\ shist (ops ++ [o]) p' h'.
    Proof.
      intros ops o p h P H No Ep HP. destruct (shist_grid ops p h H) as (_ & K).
      destruct (proj2 (K o P ltac:(destruct o; try exact Logic.I; exact (proj2 No)) Ep) HP) as ([p' h'] & E). exists p', h'. split; [exact E|].
      apply (shist_app ops [o] p h); [exact H| |cbn [rfold]; rewrite E; reflexivity]. cbn [schecked_run fst]. rewrite E. split; [destruct o; try exact Logic.I; exact (proj1 No)|exact Logic.I].
    Qed.
    Local Notation keys p := (map fst (sm_iter (ly_items (sp_layout p)))).
    Lemma sremove_does : forall ops (p : sp) h k b, shist ops p h -> In k (keys p) -> exists o p', sp_remove p (Real 0) k b = Ok (o, p') /\ shist (ops ++ [SRemove (Real 0) k b]) p' h.
    Proof.
      intros ops p h k b H Hk. apply in_map_iff in Hk as ([k' x] & Ek & Hx). cbn [fst] in Ek. subst k'.
      destruct (shist_does ops (SRemove (Real 0) k b) p h _ H Logic.I eq_refl) as (p' & h' & E & H'); [split; [reflexivity|eauto]|]. cbn [sstep] in E.
      apply rbind_ok in E as ([o p2] & E & Z). injection Z as <- <-. eauto.
    Qed.
    Lemma sflush_does : forall ops (p : sp) h, shist ops p h -> exists p', sp_flush p = Ok p' /\ shist (ops ++ [SFlush]) p' h /\ dirtyc (ly_cde (sp_layout p')) = false.
    Proof.
      intros ops p h H. destruct (shist_does ops SFlush p h _ H Logic.I eq_refl Logic.I) as (p' & h' & E & H'). cbn [sstep] in E. apply rbind_ok in E as (p2 & E & Z). injection Z as <- <-.
      exists p2. split; [exact E|]. split; [exact H'|]. destruct (shist_grid _ _ _ H) as (Gl & _). unfold sp_flush in E. apply rbind_ok in E as (l & El & E). injection E as <-. cbn [sp_layout].
      destruct (GL_flush M BSok items _ Gl) as (l2 & E2 & _ & _ & D). assert (E2' : layout_flush (sp_layout p) = Ok l2) by exact E2. rewrite El in E2'. injection E2' as ->. exact D.
    Qed.
    Lemma sdrop_does : forall n ops (p : sp) h (g : G), shist ops p h -> exists p' g' ops', drop_sp n p g = Ok (p', g') /\ shist ops' p' h.
    Proof.
      induction n as [|n IH]; intros ops p h g H; cbn [drop_sp]; [eauto|]. destruct (g_index g 1) as [u g1]. destruct (some_key (sp_layout p) g1) as [k g2] eqn:Ek. destruct k as [k|]; [|eauto].
      destruct (sremove_does ops p h k false H (some_key_in _ _ _ _ Ek)) as (o & p1 & E & H1). rewrite E. cbn [rbind]. exact (IH _ p1 h g2 H1).
    Qed.
    Lemma key_gone : forall (m m' : smap (pitem R dtransf)) k v, sm_ok m -> sm_remove m k = Some (v, m') ->
      (forall k', In k' (map fst (sm_iter m')) -> In k' (map fst (sm_iter m)) /\ k' <> k) /\ (forall k', In k' (map fst (sm_iter m)) -> k' <> k -> In k' (map fst (sm_iter m'))) /\ In k (map fst (sm_iter m)).
    Proof.
      intros m m' k v S E. destruct (remove_spec m k v m' S E) as (_ & a & b & E1 & E2). pose proof (iter_nodup m) as Nd. rewrite E1, E2 in *. rewrite !map_app in *. cbn [map fst] in *.
      apply NoDup_remove in Nd as (_ & Nk). split; [|split].
      - intros k' Hk. split; [apply in_app_iff in Hk as [Hk|Hk]; apply in_app_iff; [left|right; right]; exact Hk|]. intros ->. exact (Nk Hk).
      - intros k' Hk Ne. apply in_app_iff in Hk as [Hk|[Hk|Hk]]; apply in_app_iff; [left; exact Hk|subst; contradiction|right; exact Hk].
      - apply in_app_iff. right. left. reflexivity.
    Qed.
    Lemma take_keys : forall ks ops (p p' : sp) h, shist ops p h -> rfold (fun q k => '(_, q') <- sp_remove q (Real 0) k true ;; Ok q') ks p = Ok p' -> NoDup ks /\ incl ks (keys p).
    Proof.
      induction ks as [|k ks IH]; intros ops p p' h H E; cbn [rfold] in E; [split; [constructor|intros ? []]|]. apply rbind_ok in E as (p1 & Er & E). apply rbind_ok in Er as ([o p2] & Er & Z). injection Z as ->.
      destruct (shist_facts _ _ _ H) as (_ & I & _). pose proof (hs_inv _ _ _ _ I) as Si. destruct (sremove_placed M _ _ _ _ _ _ _ Si Er) as (_ & _ & _ & pi & Em & _).
      destruct (key_gone _ _ _ _ (s_sm _ _ _ Si) Em) as (K1 & _ & K3).
      assert (H1 : shist (ops ++ [SRemove (Real 0) k true]) p1 h).
      { apply (shist_app ops _ p h); [exact H| |cbn [rfold sstep]; rewrite Er; reflexivity]. cbn [schecked_run]. split; [exact Logic.I|]. match goal with |- match ?x with _ => _ end => destruct x; exact Logic.I end. }
      destruct (IH _ p1 p' h H1 E) as (N1 & I1). split.
      - constructor; [|exact N1]. intros Z. apply I1 in Z. apply K1 in Z as (_ & Z). exact (Z eq_refl).
      - intros k' [<-|Hk]; [exact K3|]. apply I1 in Hk. apply K1 in Hk. tauto.
    Qed.
    Lemma take_does : forall ks ops (p : sp) h, shist ops p h -> NoDup ks -> incl ks (keys p) ->
      exists p' ops', rfold (fun q k => '(_, q') <- sp_remove q (Real 0) k true ;; Ok q') ks p = Ok p' /\ shist ops' p' h.
    Proof.
      induction ks as [|k ks IH]; intros ops p h H Nd Inc; cbn [rfold]; [eauto|]. apply NoDup_cons_iff in Nd as (Nk & Nd). destruct (sremove_does ops p h k true H (Inc k (or_introl eq_refl))) as (o & p1 & E & H1).
      rewrite E. cbn [rbind]. destruct (shist_facts _ _ _ H) as (_ & I & _). pose proof (hs_inv _ _ _ _ I) as Si. destruct (sremove_placed M _ _ _ _ _ _ _ Si E) as (_ & _ & _ & pi & Em & _).
      destruct (key_gone _ _ _ _ (s_sm _ _ _ Si) Em) as (_ & K2 & _). apply (IH _ p1 h H1 Nd). intros k' Hk. apply K2; [apply Inc; right; exact Hk|]. intros ->. exact (Nk Hk).
    Qed.
    Lemma opts_does : forall (p : sp) ks, incl ks (keys p) -> exists os, opts_of p ks = Ok os.
    Proof.
      intros p. unfold opts_of. induction ks as [|k ks IH]; intros Inc; cbn [rmapM]; [eauto|]. pose proof (Inc k (or_introl eq_refl)) as Hk. apply in_map_iff in Hk as ([k' x] & Ek & Hx). cbn [fst] in Ek. subst k'.
      apply get_iter in Hx. rewrite Hx. cbn [expect rbind]. destruct IH as (os & Eo); [intros y Hy; apply Inc; right; exact Hy|]. rewrite Eo. cbn [rbind]. eauto.
    Qed.
    Lemma take_out_iff : forall ops (p : sp) h ks, shist ops p h -> ((exists r, take_out p ks = Ok r) <-> NoDup ks /\ incl ks (keys p)).
    Proof.
      intros ops p h ks H. unfold take_out. split.
      - intros (r & E). apply rbind_ok in E as (os & _ & E). apply rbind_ok in E as (p1 & E & _). exact (take_keys ks ops p p1 h H E).
      - intros (Nd & Inc). destruct (opts_does p ks Inc) as (os & Eo). rewrite Eo. cbn [rbind]. destruct (take_does ks ops p h H Nd Inc) as (p1 & o1 & E1 & H1). rewrite E1. cbn [rbind].
        destruct (sflush_does o1 p1 h H1) as (p2 & E2 & _). rewrite E2. cbn [rbind]. eauto.
    Qed.
    Lemma put_does : forall xs ptrs ops (p : sp) h, shist ops p h -> packed items (ly_bin (sp_layout p)) (xs ++ placed (sp_layout p)) -> length ptrs = length xs ->
      exists q, rfold (sstep ovf tol) (put_ops xs ptrs) (p, h) = Ok (q, h) /\ shist (ops ++ put_ops xs ptrs) q h.
    Proof.
      induction xs as [|[i d] xs IH]; intros ptrs ops p h H Pk L.
      - exists p. destruct ptrs; [|discriminate]. cbn. rewrite app_nil_r. auto.
      - destruct ptrs as [|ptr ptrs]; [discriminate|]. injection L as L. unfold put_ops. cbn [combine map fst snd]. fold (put_ops xs ptrs : list (sop R dtransf)).
        destruct (shist_facts _ _ _ H) as (Ei & I & _). pose proof (sinst_ids _ _ _ Hn) as Ids. pose proof Fs as Fi. rewrite <- Ei in Fi, Pk.
        destruct (put_checked M BSok inst ovf tol Ids Fi ((i, d) :: xs) (ptr :: ptrs) p h I Pk ltac:(cbn; lia)) as (Cp & _).
        unfold put_ops in Cp. cbn [combine map fst snd schecked_run] in Cp. destruct Cp as (Ch & _).
        assert (Nin : ~ In (i, d) (placed (sp_layout p))).
        { pose proof (proj1 Pk) as Nd. cbn [app] in Nd. apply NoDup_cons_iff in Nd as (N1 & _). intros Z. apply N1. apply in_or_app. right. exact Z. }
        destruct (shist_does ops (SPlace (PO (Real 0) i d) ptr) p h _ H (conj Ch Nin) eq_refl) as (p1 & h1 & E & H1).
        { split; [reflexivity|]. destruct Ch as (it & q & _ & _ & Ni & _). cbn [po_item] in *. exact (lt_nth _ _ _ Ni). }
        cbn [rfold]. rewrite E. cbn [rbind]. pose proof E as E'. cbn [sstep] in E'. apply rbind_ok in E' as ([r py] & E' & Z). injection Z as -> <-.
        destruct (splace_placed M _ _ _ _ _ _ _ Ids (hs_inv _ _ _ _ I) E') as (Pm & Eb).
        destruct (IH ptrs _ p1 h H1) as (q & Eq & Hq).
        + rewrite Eb, <- Ei. eapply (packed_perm M); [|exact Pk]. rewrite Pm. apply Permutation_middle.
        + exact L.
        + exists q. split; [exact Eq|]. rewrite <- app_assoc in Hq. exact Hq.
    Qed.
    Lemma back_does : forall ops (p : sp) h ks os p', shist ops p h -> take_out p ks = Ok (os, p') ->
      forall xs ptrs, Permutation xs (map (fun o => (po_item o, po_dt o)) os) -> length ptrs = length xs -> exists q, rfold (sstep ovf tol) (put_ops xs ptrs) (p', h) = Ok (q, h) /\
        Permutation (placed (sp_layout q)) (placed (sp_layout p)) /\ ly_bin (sp_layout q) = ly_bin (sp_layout p).
    Proof.
      intros ops p h ks os p' H E xs ptrs Px Lp. destruct H as (C & R0). destruct (taken_back M BSok items hgt inst ovf tol w c ptr0 ops p0 p h ks os p' Hn Fs E0 C R0 E) as (out & C1 & R1 & _ & P1 & B1 & K).
      destruct (K xs ptrs Px Lp) as (_ & K'). assert (H1 : shist (ops ++ out) p' h) by (split; assumption).
      destruct (put_does xs ptrs (ops ++ out) p' h H1) as (q & Eq & _); [|exact Lp|].
      - rewrite B1. eapply (packed_perm M); [|]; [|destruct (shist_facts ops p h (conj C R0)) as (Ei & I & _); rewrite <- Ei; exact (q_packed _ _ _ (HSI_SPInv M _ _ _ I))].
        rewrite P1. apply Permutation_app_tail. symmetry. exact Px.
      - exists q. split; [exact Eq|]. exact (K' q h Eq).
    Qed.
    Lemma update_does : forall ops (p : sp) h (g : G) ptr, shist ops p h -> placed (sp_layout p) <> [] -> exists p' g' ops', update_once (p, g, ptr) = Ok (p', g', S ptr) /\ shist ops' p' h /\
      Permutation (placed (sp_layout p')) (placed (sp_layout p)).
    Proof.
      intros ops p h g ptr H Ne. unfold update_once. destruct (some_key (sp_layout p) g) as [k g1] eqn:Ek. destruct k as [k|].
      2: { exfalso. apply Ne. unfold placed. apply some_key_none in Ek. rewrite Ek. reflexivity. }
      cbn [expect rbind]. pose proof (some_key_in _ _ _ _ Ek) as Hk. pose proof Hk as Hk'. apply in_map_iff in Hk' as ([k' x] & E' & Hx). cbn [fst] in E'. subst k'. apply get_iter in Hx. rewrite Hx. cbn [expect rbind].
      destruct (sremove_does ops p h k true H Hk) as (o & p1 & E1 & H1). rewrite E1. cbn [rbind]. destruct (sflush_does _ p1 h H1) as (p2 & E2 & H2 & _). rewrite E2. cbn [rbind].
      assert (Et : take_out p [k] = Ok ([PO (Real 0) (pi_item x) (pi_dt x)], p2)).
      { unfold take_out, opts_of. cbn [rmapM rfold]. rewrite Hx. cbn [expect rbind]. rewrite E1. cbn [rbind]. rewrite E2. reflexivity. }
      destruct (shist_facts _ _ _ H) as (Ei & I & _). pose proof (sinst_ids _ _ _ Hn) as Ids. pose proof Fs as Fi. rewrite <- Ei in Fi.
      destruct (taken M BSok inst ovf tol [k] p p2 h _ Ids Fi I Et) as (_ & _ & P1 & B1 & _). cbn [map pos_of po_item po_dt app] in P1.
      destruct (put_does [(pi_item x, pi_dt x)] [ptr] _ p2 h H2) as (q & Eq & Hq).
      { rewrite B1, <- Ei. eapply (packed_perm M); [exact P1|exact (q_packed _ _ _ (HSI_SPInv M _ _ _ I))]. }
      { reflexivity. }
      destruct (back_does ops p h [k] _ p2 H Et [(pi_item x, pi_dt x)] [ptr] (Permutation_refl _) eq_refl) as (q' & Eq' & Pq & _).
      rewrite Eq in Eq'. injection Eq' as <-.
      unfold put_ops in Eq. cbn [combine map fst snd rfold sstep] in Eq. destruct (sp_place p2 (PO (Real 0) (pi_item x) (pi_dt x)) ptr) as [[r p3]|] eqn:Ep; [|discriminate Eq]. cbn [rbind] in *. injection Eq as ->.
      eexists q, g1, _. split; [reflexivity|]. split; [exact Hq|exact Pq].
    Qed.
    Lemma updates_iff : forall ops (p : sp) h n (g : G) ptr, shist ops p h -> ((exists r, updates n (p, g, ptr) = Ok r) <-> n = 0 \/ placed (sp_layout p) <> []).
    Proof.
      intros ops p h n g ptr H. split.
      - destruct n as [|n]; [auto|]. intros (r & E). right. intros Z. unfold updates in E. cbn [seq rfold] in E. apply rbind_ok in E as (s & E & _). unfold update_once in E.
        destruct (some_key (sp_layout p) g) as [k g1] eqn:Ek. destruct k as [k|]; [|discriminate E]. apply some_key_in in Ek. unfold placed in Z. apply map_eq_nil in Z. unfold sm_values in Z. apply map_eq_nil in Z.
        rewrite Z in Ek. exact Ek.
      - intros [-> | Ne]; [unfold updates; cbn; eauto|]. unfold updates. generalize (seq 0 n). intros xs. revert ops p g ptr H Ne. induction xs as [|y ys IH]; intros ops p g ptr H Ne; cbn [rfold]; [eauto|].
        destruct (update_does ops p h g ptr H Ne) as (p1 & g1 & o1 & E1 & H1 & Pm). rewrite E1. cbn [rbind]. apply (IH o1 p1 g1 (S ptr) H1). intros Z. rewrite Z in Pm. apply Permutation_nil in Pm. exact (Ne Pm).
    Qed.

    (** *** solving *)
    Hypothesis Pow : sane_extra X.
    Hypothesis Nc : cfg_cells c <> 0.
    Hypothesis Con : strips_constructible c hgt.
    Hypothesis Hh : (0 < hgt)%R.
    Hypothesis Hull : hulls_constructible items.
    Hypothesis Ht : (0 < tol)%R.
    Hypothesis Ar : (0 < items_area items)%R.
    Lemma hgt_eq : si_height inst = hgt.
    Proof. clear - Hn. unfold spinst_new in Hn. repeat (apply rbind_ok in Hn as (? & _ & Hn)). injection Hn as <-. reflexivity. Qed.
    Definition as_new (p : sp) : Prop := bn_cfg (ly_bin (sp_layout p)) = c /\ y_min (strip_bbox p) = 0%R /\ y_max (strip_bbox p) = hgt.
    Lemma ssolve_does : forall ops (p : sp) h fuel cfg (g : G) ptr, shist ops p h -> no_more_than items [sp_layout p] -> dirtyc (ly_cde (sp_layout p)) = false -> as_new p -> lc_local cfg <= lc_samples cfg ->
      exists o, solve_sp fuel tol cfg p g ptr = Ok o /\ forall p' s g' ptr', o = Some (p', s, g', ptr') -> as_new p'.
    Proof.
      intros ops p h fuel cfg g ptr H Nm Rd (Ec & Y1 & Y2) Lc. destruct (shist_facts _ _ _ H) as (Ei & I & _). pose proof (sinst_ids _ _ _ Hn) as Ids. pose proof hgt_eq as Eh.
      pose proof (HSI_SPInv M _ _ _ I) as Q. destruct (shist_grid _ _ _ H) as (Gl & _).
      assert (Snd' : Forall (fun x => sound_item M (fst x)) (si_items inst)) by (rewrite Ei; exact Snd).
      assert (Con' : strips_constructible c (si_height inst)) by (rewrite Eh; exact Con). assert (Hh' : (0 < si_height inst)%R) by (rewrite Eh; exact Hh).
      assert (Hu : hulls_constructible (si_items inst)) by (rewrite Ei; exact Hull). rewrite <- Ei in Gl.
      assert (T0 : STI M inst c p).
      { split; [exact Q|]. split; [apply GL_HL; [exact Gl|rewrite Ec; exact Nc|exact Rd]|]. split.
        - intros i it q Hi. rewrite Ei in Hi. specialize (Nm i it q Hi). unfold copies, items_in in Nm. cbn [flat_map] in Nm. rewrite app_nil_r in Nm. exact Nm.
        - split; [exact Ec|]. rewrite Eh. split; [exact Y1|exact Y2]. }
      unfold solve_sp. rewrite (s_inst _ _ _ (q_inv _ _ _ Q)). destruct (order_total M (BPI (si_items inst) 0%R []) Hu) as (order & Eo). assert (Eo' : item_order (si_items inst) = Ok order) by exact Eo. rewrite Eo'. cbn [rbind].
      pose proof (order_perm M (si_items inst) order Eo) as Pm.
      destruct (sfills_total M BSok Pow inst Ids Snd' c Nc Con' Hh' cfg fuel Lc order p g ptr) as (o & Ef & K); [|exact T0|].
      { intros i Hi. apply (Permutation_in _ Pm) in Hi. apply in_seq in Hi. lia. }
      assert (Ef' : sp_fill_all fuel cfg order (p, g, ptr) = Ok o) by exact Ef. rewrite Ef'. cbn [rbind]. destruct o as [[[p1 g1] ptr1]|]; [|exists None; split; [reflexivity|discriminate]]. specialize (K _ eq_refl). cbn [fst] in K.
      assert (Np : placed (sp_layout p1) <> []).
      { pose proof T0 as (Q0 & _ & Ne0 & _). destruct (sfill_all_ok M BSok inst false tol cfg Ids _ _ _ _ _ _ _ _ (q_inv _ _ _ Q0) Ne0 Ef) as (_ & _ & _ & _ & _ & D1).
        destruct (some_demand M items Ar) as (i & it & q & Ni). rewrite <- Ei in Ni.
        assert (Hc : count i (lst (sp_layout p1)) = S q).
        { apply (D1 (Gi M (si_items inst) Snd') Q0 i it (S q)); [|exact Ni]. eapply Permutation_in; [symmetry; exact Pm|]. apply in_seq. pose proof (lt_nth _ _ _ Ni). lia. }
        intros Z. unfold lst in Hc. unfold placed in Z. apply map_eq_nil in Z. rewrite Z in Hc. discriminate. }
      destruct (fit_total M BSok inst Ids Snd' c Nc Con' Hh' tol p1 ptr1 Ht K Np) as (p2 & E1 & T1). assert (E1' : fit_strip tol p1 ptr1 = Ok p2) by exact E1. rewrite E1'. cbn [rbind].
      destruct (screate_total M BSok inst c Nc p2 T1) as (s & p3 & E2). assert (E2' : sp_create p2 = Ok (s, p3)) by exact E2. rewrite E2'. cbn [rbind].
      eexists. split; [reflexivity|]. intros p' s' g' ptr' Z. injection Z as <- _ _ _. destruct T1 as (_ & _ & _ & A1 & A2 & A3). rewrite Eh in A3.
      apply sp_create_spec in E2' as (sn & l & Es & _ & _ & Ep3). apply snapshot_content in Es as (K1 & _ & _). unfold content in K1. injection K1 as _ Bl _.
      unfold as_new, strip_bbox in *. rewrite Ep3. cbn [sp_layout]. rewrite Bl. auto.
    Qed.
  End S.

  (** *** solving, taking out, solving again *)
  Lemma twice_sp_total : forall items hgt (inst : spinst R) n fuel tol c cfg (g rng : G) ptr, spinst_new items hgt = Ok inst -> Forall (fun x => sound_item M (fst x)) items -> sane_extra X ->
    cfg_cells c <> 0 -> strips_constructible c hgt -> (0 < hgt)%R -> hulls_constructible items -> (0 < tol)%R -> (0 < items_area items)%R -> 0 < lc_samples cfg -> lc_local cfg <= lc_samples cfg ->
    exists o, twice_sp n fuel tol c cfg inst g rng ptr = Ok o.
  Proof.
    intros items hgt inst n fuel tol c cfg g rng ptr Hn Snd Pow Nc Con Hh Hull Ht Ar Ls Lc. unfold twice_sp. rewrite (proj2 (Nat.ltb_lt 0 (lc_samples cfg)) Ls). cbn [rassert rbind].
    assert (Eh : si_height inst = hgt /\ si_area inst = items_area items /\ si_items inst = items) by (unfold spinst_new in Hn; repeat (apply rbind_ok in Hn as (? & _ & Hn)); injection Hn as <-; auto).
    destruct Eh as (Eh & Ea & Ei). set (w := (si_area inst * f2 / si_height inst)%num). assert (Hw : (0 < w)%R).
    { unfold w, f2. rewrite Ea, Eh. cbn [fmul fdiv fadd f1 NAT RNumT]. apply Rmult_lt_0_compat; [lra|apply Rinv_0_lt_compat; exact Hh]. }
    assert (Snd' : Forall (fun x => sound_item M (fst x)) (si_items inst)) by (rewrite Ei; exact Snd).
    assert (Con' : strips_constructible c (si_height inst)) by (rewrite Eh; exact Con). assert (Hh' : (0 < si_height inst)%R) by (rewrite Eh; exact Hh).
    destruct (new_total M BSok inst c Nc Con' Hh' w ptr Hw) as (p0 & E0' & T0). assert (E0 : sp_new inst w c ptr = Ok p0) by exact E0'. rewrite E0. cbn [rbind].
    destruct T0 as (_ & (_ & _ & _ & _ & _ & D0) & _ & A1 & A2 & A3). rewrite Eh in A3.
    assert (Z0 : no_more_than items [sp_layout p0]) by (intros i it q _; unfold sp_new in E0; apply rbind_ok in E0 as (b & _ & E0); injection E0 as <-; cbn; lia).
    assert (H0 : shist false tol p0 [] p0 []) by (split; [exact Logic.I|reflexivity]).
    assert (B0 : as_new hgt c p0) by (split; [exact A1|split; [exact A2|exact A3]]).
    destruct (ssolve_does items hgt inst false tol w c ptr p0 Hn Snd E0 Pow Nc Con Hh Hull Ht Ar [] p0 [] fuel cfg g (S ptr) H0 Z0 D0 B0 Lc) as (o1 & E1 & K1). rewrite E1. cbn [rbind].
    destruct o1 as [[[[p1 s1] g1] ptr1]|]; [|eauto]. specialize (K1 _ _ _ _ eq_refl).
    destruct (solve_any_sp M BSok items hgt inst false tol w c ptr [] p0 p0 [] fuel cfg g (S ptr) p1 s1 g1 ptr1 Hn (Gi M items Snd) E0 Logic.I eq_refl Z0 E1) as ((op1 & C1 & R1) & _ & _ & _ & _ & De1 & _ & _).
    cbn [app] in C1, R1. assert (H1 : shist false tol p0 op1 p1 [s1]) by (split; assumption).
    destruct (sdrop_does items hgt inst false tol w c ptr p0 Hn Snd E0 n op1 p1 [s1] rng H1) as (p2 & rng' & op2 & Ed & H2). rewrite Ed. cbn [rbind].
    destruct (drop_any_sp M BSok items hgt inst false tol w c ptr op1 p0 p1 [s1] n rng p2 rng' Hn (Gi M items Snd) E0 C1 R1 Ed) as (_ & (gone & _ & P2) & B2 & _).
    destruct (sflush_does items hgt inst false tol w c ptr p0 Hn Snd E0 op2 p2 [s1] H2) as (p3 & Ef & H3 & D3). rewrite Ef. cbn [rbind]. destruct (flush_keeps M _ _ Ef) as (P3 & B3).
    assert (N3 : no_more_than items [sp_layout p3]).
    { assert (Cp : forall (q : sp) i, copies i [sp_layout q] = count i (map fst (placed (sp_layout q)))).
      { intros q i. unfold copies, items_in, placed. cbn [flat_map]. rewrite app_nil_r, map_map. reflexivity. }
      intros i it q Hi. rewrite <- (De1 i it q Hi). rewrite !Cp, P3. apply (Permutation_map fst) in P2. rewrite map_app in P2. rewrite (count_perm _ _ _ P2), count_app. lia. }
    assert (A3' : as_new hgt c p3) by (unfold as_new, strip_bbox in *; rewrite B3, B2; exact K1).
    destruct (ssolve_does items hgt inst false tol w c ptr p0 Hn Snd E0 Pow Nc Con Hh Hull Ht Ar _ p3 [s1] fuel cfg g1 ptr1 H3 N3 D3 A3' Lc) as (o2 & E2 & _). rewrite E2. cbn [rbind].
    destruct o2 as [[[[p4 s2] g2] ptr2]|]; eauto.
  Qed.

  (** *** the theorems *)
  Theorem drop_bp_exact : forall items bins (inst : bpinst R dtransf) ovf ops n (p : bp) h (g : G), bpinst_new items bins = Ok inst -> Forall (fun x => sound_item M (fst x)) items ->
    Forall (fun b => good_bin (fst b)) bins -> fine_bins bins -> bchecked ovf (bp_new inst, []) ops -> bp_run ovf inst ops = Ok (p, h) ->
    ((exists r, drop_bp n p g = Ok r) <-> n <= length (items_in (bp_layouts p))).
  Proof. intros items bins inst ovf ops n p h g Hn Snd Gb Fb C R0. exact (drop_iff items bins inst ovf Hn Snd Gb Fb ops n p h g (conj C R0)). Qed.
  Theorem resume_bp_total : forall items bins (inst : bpinst R dtransf) ovf ops (p : bp) h cfg (g : G) ptr, bpinst_new items bins = Ok inst -> Forall (fun x => sound_item M (fst x)) items ->
    Forall (fun b => good_bin (fst b)) bins -> fine_bins bins -> sane_extra X -> Forall (fun b => cfg_cells (bn_cfg (fst b)) <> 0) bins -> hulls_constructible items ->
    bchecked ovf (bp_new inst, []) ops -> bp_run ovf inst ops = Ok (p, h) -> no_more_than items (bp_layouts p) -> lc_local cfg <= lc_samples cfg ->
    exists p1 r, bp_flush p = Ok p1 /\ solve_bp cfg p1 g ptr = Ok r.
  Proof.
    intros items bins inst ovf ops p h cfg g ptr Hn Snd Gb Fb Pow Nc Hull C R0 Nm Lc. destruct (flush_does items bins inst ovf Hn Snd Gb Fb ops p h (conj C R0)) as (p1 & E & H1 & Rd & Ec).
    destruct (solve_does items bins inst ovf Hn Snd Gb Fb Pow Nc Hull _ p1 h cfg g ptr H1) as (p' & s & g' & ptr' & Es); [|exact Rd|exact Lc|exists p1, (p', s, g', ptr'); auto].
    intros i it q Hi. specialize (Nm i it q Hi). unfold copies in *. rewrite items_in_c in *. rewrite Ec. exact Nm.
  Qed.
  Theorem twice_bp_exact : forall items bins (inst : bpinst R dtransf) n cfg (g rng : G) ptr, bpinst_new items bins = Ok inst -> Forall (fun x => sound_item M (fst x)) items ->
    Forall (fun b => good_bin (fst b)) bins -> fine_bins bins -> sane_extra X -> Forall (fun b => cfg_cells (bn_cfg (fst b)) <> 0) bins -> hulls_constructible items ->
    0 < lc_samples cfg -> lc_local cfg <= lc_samples cfg ->
    exists p1 s1 g1 ptr1, solve_bp cfg (bp_new inst) g ptr = Ok (p1, s1, g1, ptr1) /\ ((exists r, twice_bp n cfg inst g rng ptr = Ok r) <-> n <= length (sol_items s1)).
  Proof. intros items bins inst n cfg g rng ptr Hn Snd Gb Fb Pow Nc Hull. exact (twice_iff items bins inst true Hn Snd Gb Fb Pow Nc Hull n cfg g rng ptr). Qed.

  Theorem drop_sp_total : forall items hgt (inst : spinst R) ovf tol w c ptr0 ops p0 (p : sp) h n (g : G), spinst_new items hgt = Ok inst -> Forall (fun x => sound_item M (fst x)) items ->
    sp_new inst w c ptr0 = Ok p0 -> schecked_run ovf tol (p0, []) ops -> rfold (sstep ovf tol) ops (p0, []) = Ok (p, h) -> exists r, drop_sp n p g = Ok r.
  Proof.
    intros items hgt inst ovf tol w c ptr0 ops p0 p h n g Hn Snd E0 C R0. destruct (sdrop_does items hgt inst ovf tol w c ptr0 p0 Hn Snd E0 n ops p h g (conj C R0)) as (p' & g' & _ & E & _). eauto.
  Qed.
  Theorem take_out_exact : forall items hgt (inst : spinst R) ovf tol w c ptr0 ops p0 (p : sp) h ks, spinst_new items hgt = Ok inst -> Forall (fun x => sound_item M (fst x)) items ->
    sp_new inst w c ptr0 = Ok p0 -> schecked_run ovf tol (p0, []) ops -> rfold (sstep ovf tol) ops (p0, []) = Ok (p, h) ->
    ((exists r, take_out p ks = Ok r) <-> NoDup ks /\ incl ks (map fst (sm_iter (ly_items (sp_layout p))))) /\
    forall os p', take_out p ks = Ok (os, p') -> forall xs ptrs, Permutation xs (map (fun o => (po_item o, po_dt o)) os) -> length ptrs = length xs ->
      exists q, rfold (sstep ovf tol) (put_ops xs ptrs) (p', h) = Ok (q, h) /\ Permutation (placed (sp_layout q)) (placed (sp_layout p)) /\ ly_bin (sp_layout q) = ly_bin (sp_layout p).
  Proof.
    intros items hgt inst ovf tol w c ptr0 ops p0 p h ks Hn Snd E0 C R0. split.
    - exact (take_out_iff items hgt inst ovf tol w c ptr0 p0 Hn Snd E0 ops p h ks (conj C R0)).
    - intros os p'. exact (back_does items hgt inst ovf tol w c ptr0 p0 Hn Snd E0 ops p h ks os p' (conj C R0)).
  Qed.
  Theorem updates_exact : forall items hgt (inst : spinst R) ovf tol w c ptr0 ops p0 (p : sp) h n (g : G) ptr, spinst_new items hgt = Ok inst -> Forall (fun x => sound_item M (fst x)) items ->
    sp_new inst w c ptr0 = Ok p0 -> schecked_run ovf tol (p0, []) ops -> rfold (sstep ovf tol) ops (p0, []) = Ok (p, h) ->
    ((exists r, updates n (p, g, ptr) = Ok r) <-> n = 0 \/ placed (sp_layout p) <> []).
  Proof. intros items hgt inst ovf tol w c ptr0 ops p0 p h n g ptr Hn Snd E0 C R0. exact (updates_iff items hgt inst ovf tol w c ptr0 p0 Hn Snd E0 ops p h n g ptr (conj C R0)). Qed.
  Theorem resume_sp_total : forall items hgt (inst : spinst R) ovf tol w c ptr0 ops p0 (p : sp) h fuel cfg (g : G) ptr, spinst_new items hgt = Ok inst -> Forall (fun x => sound_item M (fst x)) items ->
    sp_new inst w c ptr0 = Ok p0 -> sane_extra X -> cfg_cells c <> 0 -> strips_constructible c hgt -> (0 < hgt)%R -> hulls_constructible items -> (0 < tol)%R -> (0 < items_area items)%R ->
    schecked_run ovf tol (p0, []) ops -> rfold (sstep ovf tol) ops (p0, []) = Ok (p, h) -> no_more_than items [sp_layout p] ->
    bn_cfg (ly_bin (sp_layout p)) = c -> y_min (outline p) = 0%R -> y_max (outline p) = hgt -> lc_local cfg <= lc_samples cfg ->
    exists p1 o, sp_flush p = Ok p1 /\ solve_sp fuel tol cfg p1 g ptr = Ok o.
  Proof.
    intros items hgt inst ovf tol w c ptr0 ops p0 p h fuel cfg g ptr Hn Snd E0 Pow Nc Con Hh Hull Ht Ar C R0 Nm A1 A2 A3 Lc.
    destruct (sflush_does items hgt inst ovf tol w c ptr0 p0 Hn Snd E0 ops p h (conj C R0)) as (p1 & E & H1 & Rd). destruct (flush_keeps M _ _ E) as (P1 & B1).
    destruct (ssolve_does items hgt inst ovf tol w c ptr0 p0 Hn Snd E0 Pow Nc Con Hh Hull Ht Ar _ p1 h fuel cfg g ptr H1) as (o & Eo & _); [|exact Rd| |exact Lc|eauto].
    - assert (Cp : forall (q : sp) i, copies i [sp_layout q] = count i (map fst (placed (sp_layout q)))).
      { intros q i. unfold copies, items_in, placed. cbn [flat_map]. rewrite app_nil_r, map_map. reflexivity. }
      intros i it q Hi. specialize (Nm i it q Hi). rewrite Cp in *. rewrite P1. exact Nm.
    - unfold as_new, strip_bbox, outline in *. rewrite B1. auto.
  Qed.
End A.
