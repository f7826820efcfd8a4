(** Operations on strip-packing problems panic exactly when they cannot be carried out. *)
From Coq Require Import List Bool Arith ZArith Lia Permutation.
From Verif Require Import Base Num GeoModel HazardModel QTModel TransfModel HpgModel CdeModel CdeSpec
  PolyModel SlotMapModel LayoutModel ProblemModel ProblemSpec PanicSpec BaseProofs SlotMapProofs CdeHistProofs LayoutProofs ProblemProofs
  ProblemOpsProofs ProblemThmProofs StripProofs MirrorProofs PanicProofs PanicPlainProofs.
Import ListNotations.

Section PS.
  Context {F : Type} {N : Num F} {D : Type} {ED : EqD D} {BS : BSearch} {DC : DComp F D}.
  Local Notation item := (item F).
  Local Notation bin := (bin F D).
  Local Notation layout := (layout F D).
  Local Notation lsnap := (lsnap F D).
  Local Notation solution := (solution F D).
  Local Notation sp := (sp F D).
  Local Notation pitem := (pitem F D).

  Variable inst : spinst F.
  Hypothesis Ids : sids_ok inst.
  Local Notation items := (si_items inst).
  Local Notation cat := (item_shape items).
  Variables (GL : layout -> Prop) (GS : lsnap -> Prop) (C : cfg -> Prop).
  Hypothesis Hcfg : forall l, GL l -> C (bn_cfg (ly_bin l)).
  Hypothesis Hfine : forall l, GL l -> items_fine cat (ly_items l).
  Hypothesis Hask : forall l s irr, GL l -> good_poly s -> exists b, poly_collides (ly_cde l) s irr = Ok b.
  Hypothesis Hmake : forall r c ptr (b : bin) id, C c -> bin_from_strip r c ptr = Ok b -> GL (layout_new id b).
  Hypothesis Hplace : forall l it q d ptr, GL l -> nth_error items (it_id it) = Some (it, q) -> good_poly (shape_at cat (it_id it) d) ->
    ~ In (it_id it, d) (placed l) -> exists k l', layout_place l it d ptr = Ok (k, l') /\ GL l'.
  Hypothesis Hremove : forall l k b p m, GL l -> sm_remove (ly_items l) k = Some (p, m) -> exists l', layout_remove l k b = Ok (p, l') /\ GL l'.
  Hypothesis Hflush : forall l, GL l -> exists l', layout_flush l = Ok l' /\ GL l'.
  Hypothesis Hsnap : forall l, GL l -> exists s l', layout_snapshot l = Ok (s, l') /\ GL l' /\ GS s.
  Hypothesis Hrestore : forall l s, GL l -> GS s -> ly_id l = ls_id s -> ly_bin l = ls_bin s -> exists l', layout_restore l s = Ok l' /\ GL l'.
  Hypothesis Hfrom : forall s, GS s -> exists l', layout_from_snapshot s = Ok l' /\ GL l'.

  Record GSI (p : sp) (h : list solution) : Prop := {
    gs_b : SInv inst p h;
    gs_l : GL (sp_layout p);
    gs_s : Forall (fun s => Forall GS (so_layouts s)) h }.

  Lemma sp_place_total : forall (p : sp) i d ptr it q, sp_inst p = inst -> length (sp_missing p) = length items -> GL (sp_layout p) ->
    nth_error items i = Some (it, q) -> good_poly (shape_at cat i d) -> ~ In (i, d) (placed (sp_layout p)) ->
    exists r p', sp_place p (PO (Real 0) i d) ptr = Ok (r, p') /\ GL (sp_layout p') /\ sp_inst p' = inst /\ length (sp_missing p') = length items /\
      Permutation (placed (sp_layout p')) ((i, d) :: placed (sp_layout p)).
  Proof.
    intros p i d ptr it q Ei Lm Gl Eit Gp Nd. pose proof (Ids _ _ _ Eit) as Eid. unfold sp_place. cbn [po_layout po_item po_dt is_strip rassert rbind].
    rewrite Ei. unfold item_of. rewrite Eit. cbn [expect rbind fst].
    assert (Hi : i < length (sp_missing p)) by (rewrite Lm; exact (lt_nth _ _ _ Eit)).
    destruct (missing_add_ok i (-1) _ Hi) as (m & Em & Lm'). rewrite <- Eid in Gp, Nd, Eit. destruct (Hplace _ it q d ptr Gl Eit Gp Nd) as (k & l' & Epl & Gl'). rewrite Epl. cbn [rbind].
    unfold register_included. rewrite Em. cbn [rbind]. eexists. eexists. split; [reflexivity|]. cbn [sp_layout sp_inst sp_missing]. split; [exact Gl'|]. split; [reflexivity|]. split; [congruence|].
    apply place_content in Epl as (_ & _ & Ins).
    pose proof (SlotMapProofs.insert_perm (ly_items (sp_layout p)) (pi_new it d ptr) (proj1 (Hfine _ Gl))) as P. rewrite Ins in P. cbn [snd] in P. unfold placed.
    apply (Permutation_map (fun p : pitem => (pi_item p, pi_dt p))) in P. cbn [map pi_new pi_item pi_dt] in P. rewrite Eid in P. exact P.
  Qed.
  Lemma replace_total : forall xs (p : sp), sp_inst p = inst -> length (sp_missing p) = length items -> GL (sp_layout p) ->
    Forall (fun x => exists it q, nth_error items (fst (fst x)) = Some (it, q)) xs ->
    Forall (fun x => good_poly (shape_at cat (fst (fst x)) (snd (fst x)))) xs ->
    NoDup (map fst xs) -> (forall x, In x (map fst xs) -> ~ In x (placed (sp_layout p))) ->
    exists p', rfold replace_item xs p = Ok p' /\ GL (sp_layout p').
  Proof.
    induction xs as [|[[id d] ptr] xs IH]; intros p Ei Lm Gl Kx Gx ND Fr; cbn [rfold]; [eauto|].
    destruct (Forall_inv Kx) as (it & q & Eit). pose proof (Forall_inv_tail Kx) as Kx'. pose proof (Forall_inv Gx) as G1. pose proof (Forall_inv_tail Gx) as Gx'. cbn [map fst] in ND. apply NoDup_cons_iff in ND as (N1 & ND'). cbn [fst snd] in *.
    unfold replace_item at 1. unfold item_of. rewrite Ei, Eit. cbn [expect rbind fst].
    assert (Gs : good_poly (tr_poly (dcompose d) (it_shape it))).
    { unfold shape_at in G1. assert (Ec : cat id = it_shape it) by (unfold item_shape; rewrite Eit; reflexivity). rewrite Ec in G1. exact G1. }
    match goal with |- context [poly_collides (ly_cde (sp_layout p)) ?s ?irr] => destruct (Hask (sp_layout p) s irr Gl Gs) as (b & Eb) end. rewrite Eb. cbn [rbind].
    destruct b; cbn [rbind].
    - apply IH; auto. intros x Hx. apply Fr. right. exact Hx.
    - destruct (sp_place_total p id d ptr it q Ei Lm Gl Eit G1) as (r & p1 & E1 & G1' & Ei1 & L1 & P1); [apply Fr; left; reflexivity|]. rewrite E1. cbn [rbind].
      apply IH; auto. intros x Hx Hp. eapply Permutation_in in Hp; [|exact P1]. destruct Hp as [<-|Hp]; [contradiction|]. apply (Fr x); [right; exact Hx|exact Hp].
  Qed.
  Lemma modify_total : forall (p : sp) h r ptr, GSI p h -> makeable p r ptr -> exists p', modify_strip p r ptr = Ok p' /\ GL (sp_layout p').
  Proof.
    intros p h r ptr [I Gl Gs] (b & Eb). unfold modify_strip. rewrite (s_inst _ _ _ I). destruct (s_miss _ _ _ I) as (Lm & Fa & _).
    destruct (ProblemThmProofs.rmapM_ok (fun i => q <- item_qty items i ;; Ok (Z.of_nat q)) (seq 0 (length (sp_missing p)))) as (m & Em).
    { intros i Hi. apply in_seq in Hi. assert (Hl : i < length items) by lia. unfold item_qty. destruct (nth_lt _ _ Hl) as (x & ->). cbn. eexists. reflexivity. }
    rewrite Em. cbn [rbind]. rewrite Eb. cbn [rbind].
    set (pl := map (fun pi : pitem => (pi_item pi, pi_dt pi)) (sm_values (ly_items (sp_layout p)))) in *.
    assert (Ef : map fst (combine pl (seq (S ptr) (length pl))) = pl) by (apply combine_fst; rewrite seq_length; reflexivity).
    pose proof (Hfine _ Gl) as (F1 & F2 & F3).
    apply replace_total; cbn [sp_inst sp_layout sp_missing].
    - reflexivity.
    - apply rmapM_F2, F2_nth in Em as (E1 & _). rewrite seq_length in E1. congruence.
    - eapply Hmake; [exact (Hcfg _ Gl)|exact Eb].
    - rewrite Forall_forall. intros x Hx. apply (in_map fst) in Hx. rewrite Ef in Hx. unfold pl in Hx. apply in_map_iff in Hx as (pi & <- & Hpi). cbn [fst].
      rewrite Forall_forall in Fa. assert (Hl : pi_item pi < length items) by (apply Fa; unfold lst; apply in_map, Hpi). destruct (nth_lt _ _ Hl) as ([it q] & E). eauto.
    - rewrite Forall_forall. intros x Hx. apply (in_map fst) in Hx. rewrite Ef in Hx. unfold pl in Hx. apply in_map_iff in Hx as (pi & <- & Hpi). cbn [fst snd].
      rewrite Forall_forall in F2. destruct (F2 pi Hpi) as (E & G). rewrite <- E. exact G.
    - rewrite Ef. unfold pl. apply (NoDup_map_inv (fun x => PlacedItem (fst x) (snd x))). rewrite map_map. exact F3.
    - intros x _ [].
  Qed.
  Lemma modify_needs : forall (p : sp) r ptr p', modify_strip p r ptr = Ok p' -> makeable p r ptr.
  Proof. intros p r ptr p' H. unfold modify_strip in H. apply rbind_ok in H as (m & _ & H). apply rbind_ok in H as (b & Eb & _). exists b. exact Eb. Qed.
  Lemma s_coh : forall (p : sp) h s sn, SInv inst p h -> In s h -> In sn (so_layouts s) -> ly_id (sp_layout p) = ls_id sn -> ly_bin (sp_layout p) = ls_bin sn.
  Proof.
    intros p h s sn I Hs Hn E. apply (ci_coh _ _ (s_rec _ _ _ I) (content (sp_layout p)) (snap_content sn)); [left; reflexivity| |exact E].
    right. apply in_flat_map. exists s. split; [exact Hs|apply in_map, Hn].
  Qed.
  Lemma one_items : forall (s : solution) sn, so_layouts s = [sn] -> sol_items s = c_list (snap_content sn).
  Proof. intros s sn E. rewrite sol_items_c, E. cbn. apply app_nil_r. Qed.

  Definition moves (ovf : bool) (tol : F) (p : sp) (h : list solution) (o : sop F D) : Prop := exists p' h', sstep ovf tol (p, h) o = Ok (p', h') /\ GSI p' h'.
  Lemma sstep_does : forall ovf tol (p : sp) h o P, GSI p h -> sop_ok p o -> spossible ovf p h o = Some P -> P -> moves ovf tol p h o.
  Proof.
    intros ovf tol p h o P G B Eq HP. pose proof G as [I Gl Gs].
    assert (Fin : forall p' h', sstep ovf tol (p, h) o = Ok (p', h') -> GL (sp_layout p') -> Forall (fun s => Forall GS (so_layouts s)) h' -> moves ovf tol p h o).
    { intros p' h' E K K2. exists p', h'. split; [exact E|]. split; [exact (sstep_inv _ _ _ _ _ _ _ _ Ids I E)|exact K|exact K2]. }
    pose proof (s_inst _ _ _ I) as Ei. pose proof (proj1 (s_miss _ _ _ I)) as Lm.
    destruct o as [[li i d] ptr|li k b|r ptr|w ptr|w ptr|w ptr|ptr| |k|]; cbn [sstep spossible po_layout po_item po_dt sop_ok] in *; injection Eq as <- || discriminate.
    - destruct HP as (-> & Hi). rewrite Ei in *. destruct (nth_lt _ _ Hi) as ([it q] & Eit). destruct B as (B1 & B2). cbn [po_item po_dt] in *.
      destruct (sp_place_total p i d ptr it q Ei Lm Gl Eit B1 B2) as (r & p' & E & Gl' & _). rewrite E in *. cbn [rbind] in *. exact (Fin _ _ eq_refl Gl' Gs).
    - destruct HP as (-> & x & Hx). apply get_iter in Hx. pose proof Hx as Hg. apply remove_some in Hx as (m & Em). unfold sp_remove in *. cbn [is_strip rassert rbind] in *.
      destruct (Hremove _ k b x m Gl Em) as (l' & El & Gl'). rewrite El in *. cbn [rbind] in *.
      assert (Hl : pi_item x < length (sp_missing p)).
      { rewrite Lm. destruct (s_miss _ _ _ I) as (_ & Fa & _). rewrite Forall_forall in Fa. apply Fa. unfold lst. apply in_map. unfold sm_values. change x with (snd (k, x)). apply in_map, get_iter, Hg. }
      destruct (missing_add_ok _ 1 _ Hl) as (m' & Em' & _). unfold deregister_included in *. rewrite Em' in *. cbn [rbind] in *. exact (Fin _ _ eq_refl Gl' Gs).
    - destruct (modify_total p h r ptr G HP) as (p' & E & Gl'). rewrite E in *. cbn [rbind] in *. exact (Fin _ _ eq_refl Gl' Gs).
    - destruct (modify_total p h _ ptr G HP) as (p' & E & Gl'). unfold modify_strip_in_back, strip_bbox in *. unfold outline in E. rewrite E in *. cbn [rbind] in *. exact (Fin _ _ eq_refl Gl' Gs).
    - destruct (modify_total p h _ ptr G HP) as (p' & E & Gl'). unfold modify_strip_at_front, strip_bbox in *. unfold outline in E. rewrite E in *. cbn [rbind] in *. exact (Fin _ _ eq_refl Gl' Gs).
    - unfold sp_create in *. rewrite Ei in *. destruct (placed_qtys_ok items (sp_missing p) Lm) as (q & Eq). rewrite Eq in *. cbn [rbind] in *.
      destruct (Hsnap _ Gl) as (s & l' & El & Gl' & Gss). rewrite El in *. cbn [rbind] in *. apply (Fin _ _ eq_refl Gl'). apply Forall_app. split; [exact Gs|]. constructor; [|constructor]. cbn. auto.
    - destruct HP as (s & Es & Hd). rewrite Es in *. cbn [expect rbind] in *. pose proof (nth_error_In _ _ Es) as Hs.
      pose proof (s_sols _ _ _ I) as So. rewrite Forall_forall in So, Gs. destruct (So s Hs) as (sn & [S1 S2 S3 S4]). pose proof (Gs s Hs) as Gss. rewrite S1 in Gss. pose proof (Forall_inv Gss) as Gsn.
      unfold sp_restore in *. rewrite S1 in *. cbn [nth_error expect rbind] in *.
      assert (K : exists l, (if Nat.eqb (ly_id (sp_layout p)) (ls_id sn) then layout_restore (sp_layout p) sn else layout_from_snapshot sn) = Ok l /\ GL l).
      { destruct (Nat.eqb_spec (ly_id (sp_layout p)) (ls_id sn)) as [E|]; [|exact (Hfrom sn Gsn)]. apply Hrestore; auto. apply (s_coh p h s sn I Hs); [rewrite S1; left; reflexivity|exact E]. }
      destruct K as (l & El & Gl'). rewrite El in *. cbn [rbind] in *.
      rewrite Ei in Hd, Fin. destruct (restored_ok ovf items (so_placed s) (sp_missing p) _ Lm S2) as (m & Em).
      { intros Ho i it q Eit. rewrite <- (one_items s sn S1). apply (Hd Ho i it q). exact Eit. }
      rewrite Em in *. cbn [rbind] in *. apply (Fin _ _ eq_refl Gl'). rewrite Forall_forall. exact Gs.
    - unfold sp_flush in *. destruct (Hflush _ Gl) as (l' & El & Gl'). rewrite El in *. cbn [rbind] in *. exact (Fin _ _ eq_refl Gl' Gs).
  Qed.
  Lemma sstep_needs : forall ovf tol (p : sp) h o P s', SInv inst p h -> spossible ovf p h o = Some P -> sstep ovf tol (p, h) o = Ok s' -> P.
  Proof.
    intros ovf tol p h o P s' I Eq H. destruct o as [[li i d] ptr|li k b|r ptr|w ptr|w ptr|w ptr|ptr| |k|]; cbn [sstep spossible po_layout po_item po_dt] in *; injection Eq as <- || discriminate.
    - apply rbind_ok in H as ([r p'] & H & _). unfold sp_place in H. apply rbind_ok in H as (u & Eu & H). apply rbind_ok in H as (it & Ei & _). cbn [po_layout po_item] in *. apply item_of_inv in Ei as (q & Ei).
      split; [|exact (lt_nth _ _ _ Ei)]. destruct li as [[|?]|?]; [reflexivity|discriminate|discriminate].
    - apply rbind_ok in H as ([r p'] & H & _). unfold sp_remove in H. apply rbind_ok in H as (u & Eu & H). apply rbind_ok in H as ([pi l] & Er & _). apply remove_content in Er as (_ & _ & Er).
      split; [destruct li as [[|?]|?]; [reflexivity|discriminate|discriminate]|]. exists pi. apply get_iter, remove_some. eauto.
    - apply rbind_ok in H as (p' & H & _). exact (modify_needs _ _ _ _ H).
    - apply rbind_ok in H as (p' & H & _). exact (modify_needs _ _ _ _ H).
    - apply rbind_ok in H as (p' & H & _). exact (modify_needs _ _ _ _ H).
    - exact Logic.I.
    - apply rbind_ok in H as (s & Es & H). apply expect_ok in Es. exists s. split; [exact Es|]. intros ->. apply rbind_ok in H as (p' & H & _). unfold sp_restore in H.
      apply rbind_ok in H as (? & _ & H). apply rbind_ok in H as (? & _ & H). apply rbind_ok in H as (m & Em & _). rewrite (s_inst _ _ _ I) in *.
      pose proof (s_sols _ _ _ I) as So. rewrite Forall_forall in So. destruct (So s (nth_error_In _ _ Es)) as (sn & [S1 S2 S3 S4]).
      intros i it q Ei. rewrite (one_items s sn S1). exact (restored_needs _ _ _ _ _ (proj1 (s_miss _ _ _ I)) S2 Em i it q Ei).
    - exact Logic.I.
  Qed.
  Lemma sstep_keeps : forall ovf tol (p : sp) h o p' h', GSI p h -> sop_ok p o -> sstep ovf tol (p, h) o = Ok (p', h') -> GSI p' h'.
  Proof.
    intros ovf tol p h o p' h' G B E. destruct (spossible ovf p h o) as [P|] eqn:Ep.
    - destruct (sstep_does ovf tol p h o P G B Ep (sstep_needs ovf tol p h o P _ (gs_b _ _ G) Ep E)) as (p2 & h2 & E2 & G2). rewrite E in E2. injection E2 as <- <-. exact G2.
    - pose proof G as [I Gl Gs].
      assert (Fin : forall r ptr p1, modify_strip p r ptr = Ok p1 -> p' = p1 -> h' = h -> GSI p' h').
      { intros r ptr p1 E1 -> ->. split; [exact (sstep_inv _ _ _ _ _ _ _ _ Ids I E)| |exact Gs]. destruct (modify_total p h r ptr G (modify_needs _ _ _ _ E1)) as (p2 & E2 & G2). rewrite E1 in E2. injection E2 as <-. exact G2. }
      destruct o; try discriminate; cbn [sstep] in E.
      + apply rbind_ok in E as (p1 & E1 & E). injection E as <- <-. unfold modify_strip_centered in E1. destruct (match occupied_range (sp_layout p) with Some r => r | None => (f0, f0) end) as [a b]. exact (Fin _ _ _ E1 eq_refl eq_refl).
      + apply rbind_ok in E as (p1 & E1 & E). injection E as <- <-. unfold fit_strip in E1. apply rbind_ok in E1 as (p2 & E1 & E2). apply rbind_ok in E2 as (? & _ & E2). injection E2 as <-.
        unfold modify_strip_centered in E1. destruct (match occupied_range (sp_layout p) with Some r => r | None => (f0, f0) end) as [a b]. exact (Fin _ _ _ E1 eq_refl eq_refl).
  Qed.
  Lemma srun_keeps : forall ovf tol ops (p : sp) h p' h', GSI p h -> sops_ok ovf tol (p, h) ops -> rfold (sstep ovf tol) ops (p, h) = Ok (p', h') -> GSI p' h'.
  Proof.
    induction ops as [|o ops IH]; intros p h p' h' G B H; cbn [rfold sops_ok fst] in *; [injection H as <- <-; exact G|].
    apply rbind_ok in H as ([p1 h1] & E & H). destruct B as (B1 & B2). rewrite E in B2. exact (IH p1 h1 p' h' (sstep_keeps ovf tol p h o p1 h1 G B1 E) B2 H).
  Qed.
  Lemma srun_both : forall ovf tol w c ptr ops (p0 p : sp) h, C c -> sp_new inst w c ptr = Ok p0 -> sops_ok ovf tol (p0, []) ops -> rfold (sstep ovf tol) ops (p0, []) = Ok (p, h) ->
    GSI p h /\ forall o P, sop_ok p o -> spossible ovf p h o = Some P -> ((exists s', sstep ovf tol (p, h) o = Ok s') <-> P).
  Proof.
    intros ovf tol w c ptr ops p0 p h Hc H0 B H.
    assert (G0 : GSI p0 []).
    { split; [exact (sp_new_inv _ _ _ _ _ H0)| |constructor]. unfold sp_new in H0. apply rbind_ok in H0 as (b & Eb & H0). injection H0 as <-. exact (Hmake _ _ _ b 0 Hc Eb). }
    pose proof (srun_keeps ovf tol ops p0 [] p h G0 B H) as G. split; [exact G|]. intros o P Bo Ep. split.
    - intros (s' & E). exact (sstep_needs ovf tol p h o P s' (gs_b _ _ G) Ep E).
    - intros HP. destruct (sstep_does ovf tol p h o P G Bo Ep HP) as (p' & h' & E & _). eauto.
  Qed.
  Lemma srun_exact : forall ovf tol w c ptr ops (p0 p : sp) h o P, C c -> sp_new inst w c ptr = Ok p0 -> sops_ok ovf tol (p0, []) ops -> rfold (sstep ovf tol) ops (p0, []) = Ok (p, h) ->
    sop_ok p o -> spossible ovf p h o = Some P -> ((exists s', sstep ovf tol (p, h) o = Ok s') <-> P).
  Proof. intros ovf tol w c ptr ops p0 p h o P Hc H0 B H. exact (proj2 (srun_both ovf tol w c ptr ops p0 p h Hc H0 B H) o P). Qed.
End PS.

Section Thm.
  Context {F : Type} {N : Num F} {D : Type} {ED : EqD D} {BS : BSearch} {DC : DComp F D}.
  Hypothesis BSok : bsearch_ok BS.
  Hypothesis sym : feq_sym (F := F).
  Lemma plain_strip_exact : forall (inst : spinst F) ovf tol w c ptr ops (p0 p : sp F D) h o P, good_sinst inst -> cfg_cells c = 0 ->
    sp_new inst w c ptr = Ok p0 -> sops_ok ovf tol (p0, []) ops -> rfold (sstep ovf tol) ops (p0, []) = Ok (p, h) -> sop_ok p o ->
    spossible ovf p h o = Some P -> ((exists s', sstep ovf tol (p, h) o = Ok s') <-> P).
  Proof.
    intros inst ovf tol w c ptr ops p0 p h o P (items0 & hgt & Hi) Hc H0 B H Bo Ep. pose proof (sinst_ids _ _ _ Hi) as Ids. set (cat := item_shape (si_items inst)).
    assert (Bin : forall r c ptr (b : bin F D), bin_from_strip r c ptr = Ok b -> bn_cfg b = c /\ bn_id b = 0).
    { intros r c' ptr' b E. unfold bin_from_strip in E. apply rbind_ok in E as (s & _ & E). apply bin_new_spec in E. tauto. }
    refine (srun_exact inst Ids (PLay cat 1) (PSn cat 1) (fun c => cfg_cells c = 0) _ _ _ _ _ _ _ _ _ _ ovf tol w c ptr ops p0 p h o P Hc H0 B H Bo Ep).
    - intros l (_ & (E & _) & _). exact E.
    - intros l ((_ & Fi & _) & _). exact Fi.
    - intros l s irr ((_ & _ & Rel) & _) Gs. pose proof (rl_inv _ _ _ _ _ _ _ Rel) as Iv. pose proof (ask_answer _ _ _ (AskPoly s irr) Iv Gs) as Et. cbn [ask] in Et.
      destruct (poly_collides (ly_cde l) s irr) as [b|] eqn:Eb; [exists b; reflexivity|discriminate].
    - intros r c' ptr' b id Hc' E. apply (PL_new BSok); [eapply (strip_good sym); exact E|]. destruct (Bin _ _ _ _ E) as (E1 & E2). split; [congruence|lia].
    - intros l it q d ptr' Pl Ei Gp Nd. apply (PL_place BSok); auto. unfold cat, item_shape. rewrite Ei. reflexivity.
    - intros l k b q m Pl Er. exact (PL_remove BSok _ _ l k b q m Pl Er).
    - apply (PL_flush BSok).
    - apply (PL_snapshot BSok).
    - apply (PL_restore BSok).
    - apply (PL_from BSok).
  Qed.
End Thm.
