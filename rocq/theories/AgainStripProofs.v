(** Solving strips from any state reached by checked placements; taking items out of strips
    and putting them back. *)
From Coq Require Import List Bool Arith ZArith Lia Permutation.
From Verif Require Import Base Num GeoModel HazardModel QTModel TransfModel HpgModel CdeModel CdeSpec
  PolyModel SlotMapModel LayoutModel ProblemModel ProblemSpec LbfModel BaseProofs HazVecProofs SlotMapProofs ProblemProofs
  ProblemOpsProofs ProblemThmProofs LayoutProofs MirrorProofs MirrorThmProofs FitProofs Instances HullProofs LbfSpec LbfProofs LbfRunProofs LbfBpProofs LbfThmProofs StripProofs LbfSpProofs HistPackSpec HistPackProofs ReachProofs AgainModel AgainSpec AgainProofs.
From Coq Require Import Reals Lra.
From Verif Require Import GeoModel HazardModel QTModel TransfModel HpgModel CdeModel CdeSpec GeoSpec PlaceSpec ShapeSpec LbfModel LbfSpec HistPackSpec AgainModel AgainSpec.
Import ListNotations.
Local Open Scope nat_scope.

Section A.
  Variable M : R.
  #[local] Instance NAS : Num R := RNumT Reqb M.
  #[local] Existing Instance RTrig.
  Context {ED : EqD (dtransf R)} {BS : BSearch} {G : Type} {RG : Rng R G} {X : Extra R}.
  Hypothesis BSok : bsearch_ok BS.
  Local Notation dtransf := (dtransf R).
  Local Notation layout := (layout R dtransf).
  Local Notation popt := (popt dtransf).
  Local Notation sp := (sp R dtransf).
  Local Notation solution := (solution R dtransf).

  Lemma schecked_app : forall ovf tol a b s, schecked_run ovf tol s a -> (forall s', rfold (sstep ovf tol) a s = Ok s' -> schecked_run ovf tol s' b) ->
    schecked_run ovf tol s (a ++ b).
  Proof.
    intros ovf tol. induction a as [|o a IH]; intros b s C K; cbn [app]; [apply K; reflexivity|].
    cbn [schecked_run] in *. destruct C as (C1 & C2). split; [exact C1|]. cbn [rfold] in K. destruct (sstep ovf tol s o) as [s1|]; [|exact Logic.I].
    cbn [rbind] in K. apply IH; assumption.
  Qed.
  (** *** solving *)
  Lemma fill_run : forall ovf tol h ops (p p' : sp), sall_checked p ops -> rfold (sstep ovf tol) ops (p, []) = Ok (p', []) ->
    rfold (sstep ovf tol) ops (p, h) = Ok (p', h) /\ schecked_run ovf tol (p, h) ops.
  Proof.
    intros ovf tol h. induction ops as [|o ops IH]; intros p p' C H.
    - cbn in H. injection H as <-. split; [reflexivity|exact Logic.I].
    - cbn [rfold] in H. apply rbind_ok in H as ([p1 h1] & E & H). destruct o; cbn [sall_checked] in C; try contradiction; cbn [sstep] in E.
      + apply rbind_ok in E as ([r py] & E & Z). injection Z as -> <-. destruct C as (C1 & C2). destruct (IH _ _ (C2 _ _ E) H) as (A & B).
        cbn [rfold schecked_run fst sstep]. rewrite E. cbn [rbind]. auto.
      + apply rbind_ok in E as (py & E & Z). injection Z as -> <-. destruct C as (C1 & C2). destruct (IH _ _ (C2 _ E) H) as (A & B).
        cbn [rfold schecked_run fst sstep]. rewrite E. cbn [rbind]. auto.
  Qed.
  Lemma splace_placed : forall inst h (p : sp) o ptr r p', sids_ok inst -> SInv inst p h -> sp_place p o ptr = Ok (r, p') ->
    Permutation (placed (sp_layout p')) ((po_item o, po_dt o) :: placed (sp_layout p)) /\ ly_bin (sp_layout p') = ly_bin (sp_layout p).
  Proof.
    intros inst h p o ptr r p' Ids I H. split; [|exact (place_strip _ _ _ _ _ H)]. unfold sp_place in H. apply rbind_ok in H as (u & _ & H).
    apply rbind_ok in H as (it & Eit & H). apply item_of_inv in Eit as (q & Eit).
    apply rbind_ok in H as ([k l] & Ep & H). apply rbind_ok in H as (m & Em & H). injection H as <- <-. rewrite (s_inst _ _ _ I) in Eit. cbn [sp_layout].
    apply place_content in Ep as (_ & _ & Ins). pose proof (SlotMapProofs.insert_perm (ly_items (sp_layout p)) (pi_new it (po_dt o) ptr) (s_sm _ _ _ I)) as Pm.
    rewrite Ins in Pm. cbn [snd] in Pm. unfold placed. rewrite Pm. cbn [map pi_new pi_item pi_dt]. rewrite (Ids _ _ _ Eit). reflexivity.
  Qed.
  Lemma fill_keeps : forall inst ovf tol, sids_ok inst -> fine_items (si_items inst) -> forall ops p p', SPInv M inst p -> sall_checked p ops ->
    rfold (sstep ovf tol) ops (p, []) = Ok (p', []) -> exists more, Permutation (placed (sp_layout p')) (more ++ placed (sp_layout p)).
  Proof.
    intros inst ovf tol Ids Gi. induction ops as [|o ops IH]; intros p p' I C H.
    - cbn in H. injection H as <-. exists []. reflexivity.
    - cbn [rfold] in H. apply rbind_ok in H as ([p1 h1] & E & H). destruct o; cbn [sall_checked] in C; try contradiction; cbn [sstep] in E.
      + apply rbind_ok in E as ([r py] & E & Z). injection Z as -> <-. destruct C as (C1 & C2). pose proof (splace_SPInv M BSok _ _ _ _ _ _ Ids Gi I C1 E) as I1.
        destruct (IH _ _ I1 (C2 _ _ E) H) as (more & P). destruct (splace_placed _ _ _ _ _ _ _ Ids (q_inv _ _ _ I) E) as (P1 & _).
        exists (more ++ [(po_item o, po_dt o)]). rewrite P, P1, <- app_assoc. reflexivity.
      + apply rbind_ok in E as (py & E & Z). injection Z as -> <-. destruct C as (C1 & C2). pose proof E as E0. unfold modify_strip_in_back in E0.
        pose proof (proj1 (modify_SPInv M BSok _ _ _ _ _ Ids Gi I E0)) as I1.
        destruct (IH _ _ I1 (C2 _ E) H) as (more & P). exists more. rewrite P. apply Permutation_app_head.
        pose proof (q_fine M _ _ I) as Bf. unfold bin_fine in Bf. rewrite Forall_forall in Bf.
        specialize (Bf _ (or_introl eq_refl)). cbn in Bf. pose proof (gs_proper _ Bf) as (P1 & P2).
        assert (L : (x_max (strip_bbox p) <= x_min (strip_bbox p) + w)%R) by (rewrite C1; unfold strip_bbox in *; lra).
        assert (Q : strip_bbox p1 = Rc (x_min (strip_bbox p)) (y_min (strip_bbox p)) (x_min (strip_bbox p) + w)%R (y_max (strip_bbox p)) /\
          Permutation (placed (sp_layout p1)) (placed (sp_layout p))).
        { apply (grow_keeps M BSok inst p _ ptr p1 Ids Gi I E0); cbn [x_min x_max y_min y_max]; first [exact L|apply Rle_refl]. }
        exact (proj2 Q).
  Qed.
  Lemma fit_range : forall inst tol (p p1 : sp) ptr, sids_ok inst -> fine_items (si_items inst) -> SPInv M inst p -> fit_strip tol p ptr = Ok p1 ->
    y_min (strip_bbox p1) = y_min (strip_bbox p) /\ y_max (strip_bbox p1) = y_max (strip_bbox p).
  Proof.
    intros inst tol p p1 ptr Ids Gi Q1 Efit. unfold fit_strip in Efit. apply rbind_ok in Efit as (pz & Efit & Z). apply rbind_ok in Z as (? & _ & Z). injection Z as ->.
    unfold modify_strip_centered in Efit. match type of Efit with context [let '(_, _) := ?e in _] => destruct e as [a b] end.
    destruct (modify_SPInv M BSok _ _ _ _ _ Ids Gi Q1 Efit) as (Q2 & bb & keep & Eb & El & _).
    unfold strip_bbox at 1 3. rewrite El. destruct (strip_poly M _ _ _ _ Eb) as (Ep & _). rewrite (rect_bbox _ _ Ep). cbn [y_min y_max].
    pose proof (q_fine M _ _ Q1) as Bf. unfold bin_fine in Bf. rewrite Forall_forall in Bf.
    specialize (Bf _ (or_introl eq_refl)). cbn in Bf. pose proof (gs_proper _ Bf) as (P1 & P2). unfold strip_bbox.
    rewrite Rmin_left, Rmax_right by lra. auto.
  Qed.
  Theorem solve_any_sp : forall items hgt inst ovf tol w c ptr0 ops p0 p h fuel cfg (g : G) ptr p' s g' ptr', spinst_new items hgt = Ok inst -> fine_items items ->
    sp_new inst w c ptr0 = Ok p0 -> schecked_run ovf tol (p0, []) ops -> rfold (sstep ovf tol) ops (p0, []) = Ok (p, h) ->
    no_more_than items [sp_layout p] -> solve_sp fuel tol cfg p g ptr = Ok (Some (p', s, g', ptr')) ->
    (exists ops', schecked_run ovf tol (p0, []) (ops ++ ops') /\ rfold (sstep ovf tol) (ops ++ ops') (p0, []) = Ok (p', h ++ [s])) /\
    plain_strip (ly_bin (sp_layout p')) /\ packed items (ly_bin (sp_layout p')) (placed (sp_layout p')) /\
    map snap_content (so_layouts s) = [content (sp_layout p')] /\
    (exists more, Permutation (placed (sp_layout p')) (more ++ placed (sp_layout p))) /\
    (forall i it q, nth_error items i = Some (it, q) -> copies i [sp_layout p'] = q) /\
    y_min (strip_bbox p') = y_min (strip_bbox p) /\ y_max (strip_bbox p') = y_max (strip_bbox p).
  Proof.
    intros items hgt inst ovf tol w c ptr0 ops p0 p h fuel cfg g ptr p' s g' ptr' Hn Fi E0 C R0 Nm H. pose proof (sinst_ids _ _ _ Hn) as Ids.
    destruct (strip_history M BSok _ _ _ _ _ _ _ _ _ _ _ _ Hn Fi E0 C R0) as (Ei & I & _). pose proof (HSI_SPInv M _ _ _ I) as Q.
    pose proof (hs_inv _ _ _ _ I) as Si. unfold solve_sp in H. apply rbind_ok in H as (order & Eo & H). rewrite (s_inst _ _ _ Si) in Eo. apply (order_perm M) in Eo.
    apply rbind_ok in H as (o & Ef & H). destruct o as [[[p1 g1] ptr1]|]; [|discriminate].
    apply rbind_ok in H as (p2 & Efit & H). apply rbind_ok in H as ([s1 p3] & Ec & H). injection H as -> -> -> _.
    assert (Fi' : fine_items (si_items inst)) by (rewrite Ei; exact Fi).
    assert (Lst : forall q : sp, items_in [sp_layout q] = map (@pi_item R dtransf) (sm_values (ly_items (sp_layout q)))) by (intros q; unfold items_in; cbn; apply app_nil_r).
    assert (Ne : no_excess inst p).
    { intros i it q Hi. rewrite Ei in Hi. specialize (Nm i it q Hi). unfold copies in Nm. rewrite Lst in Nm. exact Nm. }
    destruct (sfill_all_ok M BSok inst ovf tol cfg Ids _ _ _ _ _ _ _ _ (SInv_nil M _ _ _ Si) Ne Ef) as (fo & R1 & C1 & I1 & N1 & D1).
    destruct (fill_run ovf tol h fo p p1 C1 R1) as (R1h & C1h). destruct (srun_grows M BSok inst ovf tol Ids Fi' _ _ _ _ Q C1 R1) as (Q1 & _ & Y1 & Y2).
    destruct (fill_keeps inst ovf tol Ids Fi' _ _ _ Q C1 R1) as (more & Pm).
    pose proof (fit_keeps BSok (sym_R M) inst [] tol p1 p2 ptr1 Ids (q_smi _ _ _ Q1) (q_inv _ _ _ Q1) Efit) as Pf.
    destruct (fit_range inst tol p1 p2 ptr1 Ids Fi' Q1 Efit) as (Y3 & Y4).
    pose proof Ec as Ec0. apply sp_create_spec in Ec as (sn & l & Es & _ & Esol & Ep3). apply snapshot_content in Es as (K1 & K2 & _).
    assert (Cn : content (sp_layout p') = content (sp_layout p2)) by (rewrite Ep3; exact K1).
    assert (Pl : placed (sp_layout p') = placed (sp_layout p2) /\ ly_bin (sp_layout p') = ly_bin (sp_layout p2)) by (unfold content in Cn; injection Cn as _ B2 B3; unfold placed; rewrite B3; auto).
    destruct Pl as (Pl & Bl).
    set (ops' := fo ++ [SFit ptr1; SCreate]).
    assert (C' : schecked_run ovf tol (p0, []) (ops ++ ops')).
    { apply schecked_app; [exact C|]. intros s' E'. rewrite R0 in E'. injection E' as <-. apply schecked_app; [exact C1h|]. intros s' E'. rewrite R1h in E'. injection E' as <-.
      cbn [schecked_run fst]. split; [exact Logic.I|]. cbn [sstep]. rewrite Efit. cbn [rbind]. split; [exact Logic.I|]. cbn [sstep]. rewrite Ec0. exact Logic.I. }
    assert (R' : rfold (sstep ovf tol) (ops ++ ops') (p0, []) = Ok (p', h ++ [s])).
    { unfold ops'. rewrite !rfold_app, R0. cbn [rbind]. rewrite rfold_app, R1h. cbn [rbind rfold sstep]. rewrite Efit. cbn [rbind rfold sstep]. rewrite Ec0. reflexivity. }
    split; [exists ops'; auto|]. destruct (sp_history_packs M BSok _ _ _ _ _ _ _ _ _ _ _ _ Hn Fi E0 C' R') as (A1 & A2 & _).
    split; [exact A1|]. split; [exact A2|]. split; [rewrite Esol; cbn [so_layouts map]; rewrite K2, Cn; reflexivity|].
    split; [exists more; rewrite Pl, Pf; exact Pm|]. split.
    - intros i it q Hi. unfold copies. rewrite Lst. rewrite <- Ei in Hi. assert (Hin : In i order).
      { apply (Permutation_in _ (Permutation_sym Eo)). apply in_seq. split; [lia|]. cbn. apply nth_error_Some. congruence. }
      rewrite <- (D1 Fi' Q i it q Hin Hi).
      apply count_perm. unfold lst. rewrite <- Pl in Pf. apply (Permutation_map fst) in Pf. unfold placed in Pf. rewrite !map_map in Pf. exact Pf.
    - unfold strip_bbox in *. rewrite Bl, Y3, Y4, Y1, Y2. auto.
  Qed.

  (** *** taking items out *)
  Lemma sremove_placed : forall inst h (p : sp) k b o p', SInv inst p h -> sp_remove p (Real 0) k b = Ok (o, p') ->
    Permutation (placed (sp_layout p)) ((po_item o, po_dt o) :: placed (sp_layout p')) /\ ly_bin (sp_layout p') = ly_bin (sp_layout p) /\ po_layout o = Real 0 /\
    (exists pi, sm_remove (ly_items (sp_layout p)) k = Some (pi, ly_items (sp_layout p')) /\ o = PO (Real 0) (pi_item pi) (pi_dt pi)).
  Proof.
    intros inst h p k b o p' I H. unfold sp_remove in H. apply rbind_ok in H as (u & _ & H). apply rbind_ok in H as ([pi l] & Er & H).
    apply rbind_ok in H as (m & _ & H). injection H as <- <-. cbn [sp_layout po_item po_dt po_layout]. apply remove_content in Er as (_ & Eb & Er).
    split; [|split; [exact Eb|split; [reflexivity|exists pi; auto]]]. apply remove_perm in Er; [|exact (s_sm _ _ _ I)].
    unfold placed. apply (Permutation_map (fun p : pitem R dtransf => (pi_item p, pi_dt p))) in Er. exact Er.
  Qed.
  Lemma drop_sp_steps : forall inst ovf tol n (p : sp) h (g : G) p' g', sids_ok inst -> fine_items (si_items inst) -> HSI M inst p h -> drop_sp n p g = Ok (p', g') ->
    exists ks gone, length ks = Nat.min n (length (placed (sp_layout p))) /\ length gone = length ks /\
      rfold (sstep ovf tol) (map (fun k => SRemove (Real 0) k false) ks) (p, h) = Ok (p', h) /\ HSI M inst p' h /\
      Permutation (placed (sp_layout p)) (gone ++ placed (sp_layout p')) /\ ly_bin (sp_layout p') = ly_bin (sp_layout p).
  Proof.
    intros inst ovf tol. induction n as [|n IH]; intros p h g p' g' Ids Fi I H; cbn [drop_sp] in H.
    - injection H as <- _. exists [], []. cbn. auto 10.
    - destruct (g_index g 1) as [u g1]. destruct (some_key (sp_layout p) g1) as [k g2] eqn:Ek. destruct k as [k|].
      + apply rbind_ok in H as ([o p1] & Er & H). destruct (sremove_placed _ _ _ _ _ _ _ (hs_inv _ _ _ _ I) Er) as (P1 & B1 & _).
        assert (E1 : sstep ovf tol (p, h) (SRemove (Real 0) k false) = Ok (p1, h)) by (cbn [sstep]; rewrite Er; reflexivity).
        destruct (sstep_HSI M BSok _ _ _ _ _ (SRemove (Real 0) k false) _ _ Ids Fi I Logic.I E1) as (I1 & _).
        destruct (IH _ _ _ _ _ Ids Fi I1 H) as (ks & gone & L1 & L2 & R1 & I2 & P2 & B2). exists (k :: ks), ((po_item o, po_dt o) :: gone).
        split; [rewrite (Permutation_length P1); cbn [length]; lia|]. split; [cbn; lia|]. split; [cbn [map rfold]; rewrite E1; exact R1|]. split; [exact I2|].
        split; [rewrite P1, P2; reflexivity|congruence].
      + injection H as <- _. apply some_key_none in Ek. exists [], []. unfold placed. rewrite Ek. cbn. auto 10.
  Qed.
  Lemma sremoves_checked : forall ovf tol b ks s, schecked_run ovf tol s (map (fun k => SRemove (Real 0) k b) ks).
  Proof. intros ovf tol b. induction ks as [|x ks IH]; intros s; cbn [map schecked_run]; [exact Logic.I|]. split; [exact Logic.I|]. destruct (sstep ovf tol s _); [apply IH|exact Logic.I]. Qed.

  Theorem drop_any_sp : forall items hgt inst ovf tol w c ptr0 ops p0 p h n (g : G) p' g', spinst_new items hgt = Ok inst -> fine_items items ->
    sp_new inst w c ptr0 = Ok p0 -> schecked_run ovf tol (p0, []) ops -> rfold (sstep ovf tol) ops (p0, []) = Ok (p, h) -> drop_sp n p g = Ok (p', g') ->
    (exists ks, rfold (sstep ovf tol) (ops ++ map (fun k => SRemove (Real 0) k false) ks) (p0, []) = Ok (p', h)) /\
    (exists gone, length gone = Nat.min n (length (placed (sp_layout p))) /\ Permutation (placed (sp_layout p)) (gone ++ placed (sp_layout p'))) /\
    ly_bin (sp_layout p') = ly_bin (sp_layout p) /\ packed items (ly_bin (sp_layout p')) (placed (sp_layout p')).
  Proof.
    intros items hgt inst ovf tol w c ptr0 ops p0 p h n g p' g' Hn Fi E0 C R0 H. pose proof (sinst_ids _ _ _ Hn) as Ids.
    destruct (strip_history M BSok _ _ _ _ _ _ _ _ _ _ _ _ Hn Fi E0 C R0) as (Ei & I & _). rewrite <- Ei in Fi.
    destruct (drop_sp_steps inst ovf tol n p h g p' g' Ids Fi I H) as (ks & gone & L1 & L2 & R1 & I2 & P & B).
    split; [exists ks; rewrite rfold_app, R0; exact R1|]. split; [exists gone; split; [congruence|exact P]|]. split; [exact B|]. rewrite <- Ei. exact (q_packed _ _ _ (HSI_SPInv M _ _ _ I2)).
  Qed.

  (** what fits is accepted, in every order *)
  Lemma put_checked : forall inst ovf tol, sids_ok inst -> fine_items (si_items inst) -> forall xs ptrs (p : sp) h, HSI M inst p h ->
    packed (si_items inst) (ly_bin (sp_layout p)) (xs ++ placed (sp_layout p)) -> length ptrs = length xs ->
    schecked_run ovf tol (p, h) (put_ops xs ptrs) /\
    forall p' h', rfold (sstep ovf tol) (put_ops xs ptrs) (p, h) = Ok (p', h') -> h' = h /\ HSI M inst p' h /\ Permutation (placed (sp_layout p')) (xs ++ placed (sp_layout p)) /\ ly_bin (sp_layout p') = ly_bin (sp_layout p).
  Proof.
    intros inst ovf tol Ids Fi. induction xs as [|[i d] xs IH]; intros ptrs p h I Pk L.
    - split; [exact Logic.I|]. intros p' h' H. cbn in H. injection H as <- <-. auto.
    - destruct ptrs as [|ptr ptrs]; [discriminate|]. injection L as L. unfold put_ops. cbn [combine map fst snd]. fold (put_ops xs ptrs : list (sop R dtransf)).
      destruct (packed_turned M (BPI (si_items inst) 0%R []) _ _ i d Pk (or_introl eq_refl)) as (it & q & Ni & Tn). cbn [bi_items] in Ni.
      destruct (some_tolerated (sp_layout p) it) as (irr & Tl). pose proof (HSI_SPInv M _ _ _ I) as Q.
      pose proof (proj1 Pk) as Nd. cbn [app] in Nd. inversion Nd as [|? ? N1 N2]; subst.
      assert (Nin : ~ In (i, d) (placed (sp_layout p))) by (intros Z; apply N1; apply in_or_app; right; exact Z).
      assert (P1 : packed (si_items inst) (ly_bin (sp_layout p)) ((i, d) :: placed (sp_layout p))).
      { refine (packed_incl M _ _ _ _ _ _ Pk); [constructor; [exact Nin|exact (proj1 (q_packed _ _ _ Q))]|]. intros x [<-|Hx]; [left; reflexivity|]. right. apply in_or_app. right. exact Hx. }
      assert (Ch : schecked p (PO (Real 0) i d)).
      { exists it, q, irr. cbn [po_layout po_item po_dt]. split; [reflexivity|]. split; [rewrite (s_inst _ _ _ (q_inv _ _ _ Q)); exact Ni|]. split; [exact Tl|]. split; [|exact Tn].
        apply (accepted_packs M (si_items inst) (sp_layout p) it q irr i d); try assumption; [exact (sm_layout _ _ _ (q_smi _ _ _ Q))|exact (q_fine M _ _ Q)|exact (q_packed _ _ _ Q)]. }
      cbn [schecked_run fst].
      assert (K : forall p1 h1, sstep ovf tol (p, h) (SPlace (PO (Real 0) i d) ptr) = Ok (p1, h1) -> h1 = h /\ HSI M inst p1 h /\
        Permutation ((i, d) :: xs ++ placed (sp_layout p)) (xs ++ placed (sp_layout p1)) /\ ly_bin (sp_layout p1) = ly_bin (sp_layout p)).
      { intros p1 h1 E. destruct (sstep_HSI M BSok _ _ _ _ _ (SPlace (PO (Real 0) i d) ptr) _ _ Ids Fi I Ch E) as (I1 & _). cbn [sstep] in E.
        apply rbind_ok in E as ([r py] & E & Z). injection Z as -> <-. destruct (splace_placed _ _ _ _ _ _ _ Ids (q_inv _ _ _ Q) E) as (Pm & Eb).
        split; [reflexivity|]. split; [exact I1|]. split; [|exact Eb]. rewrite Pm. apply Permutation_middle. }
      split.
      + split; [exact Ch|]. destruct (sstep ovf tol (p, h) (SPlace (PO (Real 0) i d) ptr)) as [[p1 h1]|]; [|exact Logic.I].
        destruct (K _ _ eq_refl) as (-> & I1 & Pm & Eb). apply (IH ptrs p1 h I1); [|exact L]. rewrite Eb. eapply (packed_perm M); [exact Pm|exact Pk].
      + intros p' h' H. cbn [rfold] in H. apply rbind_ok in H as ([p1 h1] & E & H). destruct (K _ _ E) as (-> & I1 & Pm & Eb).
        destruct (IH ptrs p1 h I1) as (_ & D); [rewrite Eb; eapply (packed_perm M); [exact Pm|exact Pk]|exact L|].
        destruct (D _ _ H) as (-> & I' & Pm' & Eb'). split; [reflexivity|]. split; [exact I'|]. split; [|congruence]. rewrite Pm', <- Pm. reflexivity.
  Qed.
  Lemma get_removed : forall (m m' : smap (pitem R dtransf)) k v, sm_ok m -> sm_remove m k = Some (v, m') ->
    sm_get m k = Some v /\ forall k' v', sm_get m' k' = Some v' -> sm_get m k' = Some v'.
  Proof.
    intros m m' k v S E. destruct (remove_spec m k v m' S E) as (_ & a & b & E1 & E2). split; [apply remove_some; eauto|].
    intros k' v' Hk. apply get_iter in Hk. apply get_iter. rewrite E2 in Hk. rewrite E1. apply in_app_iff in Hk as [Hk|Hk]; apply in_app_iff; [left; exact Hk|right; right; exact Hk].
  Qed.
  Definition pos_of (o : popt) : nat * dtransf := (po_item o, po_dt o).
  Lemma take_steps : forall inst ovf tol, sids_ok inst -> fine_items (si_items inst) -> forall (m0 : smap (pitem R dtransf)) ks (p p' : sp) h os, HSI M inst p h ->
    (forall k v, sm_get (ly_items (sp_layout p)) k = Some v -> sm_get m0 k = Some v) ->
    rmapM (fun k => pi <- expect (sm_get m0 k) ;; Ok (PO (Real 0) (pi_item pi) (pi_dt pi))) ks = Ok os ->
    rfold (fun q k => '(_, q') <- sp_remove q (Real 0) k true ;; Ok q') ks p = Ok p' ->
    rfold (sstep ovf tol) (map (fun k => SRemove (Real 0) k true) ks) (p, h) = Ok (p', h) /\ HSI M inst p' h /\
    Permutation (placed (sp_layout p)) (map pos_of os ++ placed (sp_layout p')) /\ ly_bin (sp_layout p') = ly_bin (sp_layout p) /\ Forall (fun o => po_layout o = Real 0) os.
  Proof.
    intros inst ovf tol Ids Fi m0. induction ks as [|k ks IH]; intros p p' h os I Sub Eo H; cbn [rmapM rfold] in *.
    - injection H as <-. injection Eo as <-. cbn. auto.
    - apply rbind_ok in Eo as (o1 & E1 & Eo). apply rbind_ok in E1 as (pi0 & Eg & E1). apply expect_ok in Eg. injection E1 as <-.
      apply rbind_ok in Eo as (os1 & Eo & Z). injection Z as <-.
      apply rbind_ok in H as (p1 & Er & H). apply rbind_ok in Er as ([o p2] & Er & Z). injection Z as ->.
      destruct (sremove_placed _ _ _ _ _ _ _ (hs_inv _ _ _ _ I) Er) as (P1 & B1 & _ & pi & Em & ->). cbn [po_item po_dt] in P1.
      destruct (get_removed _ _ _ _ (s_sm _ _ _ (hs_inv _ _ _ _ I)) Em) as (G1 & G2). apply Sub in G1. rewrite G1 in Eg. injection Eg as <-.
      assert (E1 : sstep ovf tol (p, h) (SRemove (Real 0) k true) = Ok (p1, h)) by (cbn [sstep]; rewrite Er; reflexivity).
      destruct (sstep_HSI M BSok _ _ _ _ _ (SRemove (Real 0) k true) _ _ Ids Fi I Logic.I E1) as (I1 & _).
      destruct (IH p1 p' h os1 I1) as (R1 & I2 & P2 & B2 & F2); [intros k' v' Hk; apply Sub; exact (G2 _ _ Hk)|exact Eo|exact H|].
      split; [cbn [map rfold]; rewrite E1; exact R1|]. split; [exact I2|]. split; [cbn [map app pos_of po_item po_dt]; rewrite P1, P2; reflexivity|].
      split; [congruence|]. constructor; [reflexivity|exact F2].
  Qed.
  Lemma flush_keeps : forall (p p' : sp), sp_flush p = Ok p' -> placed (sp_layout p') = placed (sp_layout p) /\ ly_bin (sp_layout p') = ly_bin (sp_layout p).
  Proof.
    intros p p' H. unfold sp_flush in H. apply rbind_ok in H as (l & El & H). injection H as <-. cbn [sp_layout]. apply flush_content in El.
    unfold content in El. injection El as _ B C. unfold placed. rewrite C. auto.
  Qed.
  Lemma taken : forall inst ovf tol ks (p p' : sp) h os, sids_ok inst -> fine_items (si_items inst) -> HSI M inst p h -> take_out p ks = Ok (os, p') ->
    rfold (sstep ovf tol) (map (fun k => SRemove (Real 0) k true) ks ++ [SFlush]) (p, h) = Ok (p', h) /\ HSI M inst p' h /\
    Permutation (placed (sp_layout p)) (map pos_of os ++ placed (sp_layout p')) /\ ly_bin (sp_layout p') = ly_bin (sp_layout p) /\ Forall (fun o => po_layout o = Real 0) os.
  Proof.
    intros inst ovf tol ks p p' h os Ids Fi I H. unfold take_out in H. apply rbind_ok in H as (os' & Eo & H). apply rbind_ok in H as (p1 & Er & H).
    apply rbind_ok in H as (p2 & Ef & H). injection H as -> ->.
    destruct (take_steps inst ovf tol Ids Fi _ ks p p1 h os I (fun k v H => H) Eo Er) as (R1 & I1 & P1 & B1 & F1).
    assert (E1 : sstep ovf tol (p1, h) SFlush = Ok (p', h)) by (cbn [sstep]; rewrite Ef; reflexivity).
    destruct (sstep_HSI M BSok _ _ _ _ _ SFlush _ _ Ids Fi I1 Logic.I E1) as (I2 & _). destruct (flush_keeps _ _ Ef) as (Pf & Bf).
    split; [rewrite rfold_app, R1; cbn [rbind rfold]; rewrite E1; reflexivity|]. split; [exact I2|]. split; [rewrite Pf; exact P1|]. split; [congruence|exact F1].
  Qed.
  Theorem taken_back : forall items hgt inst ovf tol w c ptr0 ops p0 p h ks os p', spinst_new items hgt = Ok inst -> fine_items items ->
    sp_new inst w c ptr0 = Ok p0 -> schecked_run ovf tol (p0, []) ops -> rfold (sstep ovf tol) ops (p0, []) = Ok (p, h) -> take_out p ks = Ok (os, p') ->
    exists out, schecked_run ovf tol (p0, []) (ops ++ out) /\ rfold (sstep ovf tol) (ops ++ out) (p0, []) = Ok (p', h) /\
      Forall (fun o => po_layout o = Real 0) os /\ Permutation (placed (sp_layout p)) (map (fun o => (po_item o, po_dt o)) os ++ placed (sp_layout p')) /\
      ly_bin (sp_layout p') = ly_bin (sp_layout p) /\
      forall xs ptrs, Permutation xs (map (fun o => (po_item o, po_dt o)) os) -> length ptrs = length xs ->
        schecked_run ovf tol (p0, []) (ops ++ out ++ put_ops xs ptrs) /\
        forall q h', rfold (sstep ovf tol) (put_ops xs ptrs) (p', h) = Ok (q, h') ->
          Permutation (placed (sp_layout q)) (placed (sp_layout p)) /\ ly_bin (sp_layout q) = ly_bin (sp_layout p).
  Proof.
    intros items hgt inst ovf tol w c ptr0 ops p0 p h ks os p' Hn Fi E0 C R0 H. pose proof (sinst_ids _ _ _ Hn) as Ids.
    destruct (strip_history M BSok _ _ _ _ _ _ _ _ _ _ _ _ Hn Fi E0 C R0) as (Ei & I & _). rewrite <- Ei in Fi.
    destruct (taken inst ovf tol ks p p' h os Ids Fi I H) as (R1 & I1 & P1 & B1 & F1). change (map pos_of os) with (map (fun o : popt => (po_item o, po_dt o)) os) in P1.
    exists (map (fun k => SRemove (Real 0) k true) ks ++ [SFlush]).
    assert (C1 : schecked_run ovf tol (p, h) (map (fun k => SRemove (Real 0) k true) ks ++ [SFlush])).
    { apply schecked_app; [apply sremoves_checked|]. intros s' _. cbn [schecked_run]. split; [exact Logic.I|]. destruct (sstep ovf tol s' SFlush); exact Logic.I. }
    assert (A : forall b, schecked_run ovf tol (p, h) b -> schecked_run ovf tol (p0, []) (ops ++ b)).
    { intros b Cb. apply schecked_app; [exact C|]. intros s' E'. rewrite R0 in E'. injection E' as <-. exact Cb. }
    split; [apply A; exact C1|]. split; [rewrite rfold_app, R0; exact R1|]. split; [exact F1|]. split; [exact P1|]. split; [exact B1|].
    intros xs ptrs Px Lp. destruct (put_checked inst ovf tol Ids Fi xs ptrs p' h I1) as (Cp & D).
    - rewrite B1. eapply (packed_perm M); [|exact (q_packed _ _ _ (HSI_SPInv M _ _ _ I))]. rewrite P1. apply Permutation_app_tail. symmetry. exact Px.
    - exact Lp.
    - split.
      + apply A. apply schecked_app; [exact C1|]. intros s' E'. rewrite R1 in E'. injection E' as <-. exact Cp.
      + intros q h' Hq. destruct (D _ _ Hq) as (_ & _ & Pq & Bq). split; [|congruence]. rewrite Pq, P1. apply Permutation_app_tail. exact Px.
  Qed.

  (** *** removing and placing, over and over *)
  Lemma update_step : forall inst ovf tol (p p' : sp) h (g g' : G) ptr ptr', sids_ok inst -> fine_items (si_items inst) -> HSI M inst p h ->
    update_once (p, g, ptr) = Ok (p', g', ptr') ->
    exists ops, schecked_run ovf tol (p, h) ops /\ rfold (sstep ovf tol) ops (p, h) = Ok (p', h) /\ HSI M inst p' h /\
      Permutation (placed (sp_layout p')) (placed (sp_layout p)) /\ ly_bin (sp_layout p') = ly_bin (sp_layout p).
  Proof.
    intros inst ovf tol p p' h g g' ptr ptr' Ids Fi I H. unfold update_once in H. destruct (some_key (sp_layout p) g) as [k g1].
    apply rbind_ok in H as (k1 & _ & H). apply rbind_ok in H as (pi & Eg & H). apply expect_ok in Eg.
    apply rbind_ok in H as ([o p1] & Er & H). apply rbind_ok in H as (p2 & Ef & H). apply rbind_ok in H as ([r p3] & Ep & H). injection H as <- <- <-.
    assert (Et : take_out p [k1] = Ok ([PO (Real 0) (pi_item pi) (pi_dt pi)], p2)).
    { unfold take_out, opts_of. cbn [rmapM rfold]. rewrite Eg. cbn [expect rbind]. rewrite Er. cbn [rbind]. rewrite Ef. reflexivity. }
    destruct (taken inst ovf tol [k1] p p2 h _ Ids Fi I Et) as (R1 & I1 & P1 & B1 & _). cbn [map pos_of po_item po_dt app] in P1.
    destruct (put_checked inst ovf tol Ids Fi [(pi_item pi, pi_dt pi)] [ptr] p2 h I1) as (Cp & D).
    { rewrite B1. eapply (packed_perm M); [exact P1|exact (q_packed _ _ _ (HSI_SPInv M _ _ _ I))]. }
    { reflexivity. }
    assert (E3 : rfold (sstep ovf tol) (put_ops [(pi_item pi, pi_dt pi)] [ptr]) (p2, h) = Ok (p3, h)) by (cbn [put_ops combine map fst snd rfold sstep]; rewrite Ep; reflexivity).
    destruct (D _ _ E3) as (_ & I3 & P3 & B3). exists ((map (fun k => SRemove (Real 0) k true) [k1] ++ [SFlush]) ++ put_ops [(pi_item pi, pi_dt pi)] [ptr]). split.
    - apply schecked_app.
      + apply schecked_app; [apply sremoves_checked|]. intros s' _. cbn [schecked_run]. split; [exact Logic.I|]. destruct (sstep ovf tol s' SFlush); exact Logic.I.
      + intros s' E'. rewrite R1 in E'. injection E' as <-. exact Cp.
    - split; [rewrite rfold_app, R1; exact E3|]. split; [exact I3|]. split; [rewrite P3, P1; reflexivity|congruence].
  Qed.
  Theorem updates_keep : forall items hgt inst ovf tol w c ptr0 ops p0 p h n (g : G) ptr p' g' ptr', spinst_new items hgt = Ok inst -> fine_items items ->
    sp_new inst w c ptr0 = Ok p0 -> schecked_run ovf tol (p0, []) ops -> rfold (sstep ovf tol) ops (p0, []) = Ok (p, h) -> updates n (p, g, ptr) = Ok (p', g', ptr') ->
    (exists ops', schecked_run ovf tol (p0, []) (ops ++ ops') /\ rfold (sstep ovf tol) (ops ++ ops') (p0, []) = Ok (p', h)) /\
    Permutation (placed (sp_layout p')) (placed (sp_layout p)) /\ ly_bin (sp_layout p') = ly_bin (sp_layout p).
  Proof.
    intros items hgt inst ovf tol w c ptr0 ops p0 p h n g ptr p' g' ptr' Hn Fi E0 C R0 H. pose proof (sinst_ids _ _ _ Hn) as Ids.
    destruct (strip_history M BSok _ _ _ _ _ _ _ _ _ _ _ _ Hn Fi E0 C R0) as (Ei & I & _). rewrite <- Ei in Fi.
    assert (K : exists ops', schecked_run ovf tol (p, h) ops' /\ rfold (sstep ovf tol) ops' (p, h) = Ok (p', h) /\
      Permutation (placed (sp_layout p')) (placed (sp_layout p)) /\ ly_bin (sp_layout p') = ly_bin (sp_layout p)).
    { clear R0 C. unfold updates in H. revert p g ptr I H. induction (seq 0 n) as [|x xs IH]; intros p g ptr I H; cbn [rfold] in H.
      - injection H as <- _ _. exists []. cbn. auto.
      - apply rbind_ok in H as ([[p1 g1] ptr1] & E & H). destruct (update_step inst ovf tol p p1 h g g1 ptr ptr1 Ids Fi I E) as (o1 & C1 & R1 & I1 & P1 & B1).
        destruct (IH p1 g1 ptr1 I1 H) as (o2 & C2 & R2 & P2 & B2). exists (o1 ++ o2).
        split; [apply schecked_app; [exact C1|]; intros s' E'; rewrite R1 in E'; injection E' as <-; exact C2|].
        split; [rewrite rfold_app, R1; exact R2|]. split; [rewrite P2; exact P1|congruence]. }
    destruct K as (ops' & C' & R' & P' & B'). split; [|auto]. exists ops'. split; [|rewrite rfold_app, R0; exact R'].
    apply schecked_app; [exact C|]. intros s' E'. rewrite R0 in E'. injection E' as <-. exact C'.
  Qed.

  (** *** solving, taking out, solving again *)
  Theorem twice_sp_packs : forall items hgt inst n fuel tol c cfg (g rng : G) ptr s1 s2 p, spinst_new items hgt = Ok inst -> fine_items items ->
    twice_sp n fuel tol c cfg inst g rng ptr = Ok (Some (s1, s2, p)) ->
    (forall s, s = s1 \/ s = s2 -> exists sn, so_layouts s = [sn] /\ plain_strip (ls_bin sn) /\ packed items (ls_bin sn) (snap_placed sn) /\
       (forall i it q, nth_error items i = Some (it, q) -> count i (sol_items s) = q) /\
       y_min (p_bbox (a_obj (bn_outer (ls_bin sn)))) = Rmin 0 hgt /\ y_max (p_bbox (a_obj (bn_outer (ls_bin sn)))) = Rmax 0 hgt) /\
    (exists sn1 sn2 out more rest, so_layouts s1 = [sn1] /\ so_layouts s2 = [sn2] /\ length out = Nat.min n (length (snap_placed sn1)) /\
       Permutation (snap_placed sn1) (out ++ rest) /\ Permutation (snap_placed sn2) (more ++ rest)).
  Proof.
    intros items hgt inst n fuel tol c cfg g rng ptr s1 s2 p Hn Fi H. unfold twice_sp in H. apply rbind_ok in H as ([] & _ & H).
    apply rbind_ok in H as (p0 & E0 & H). apply rbind_ok in H as (o1 & Es1 & H). destruct o1 as [[[[p1 t1] g1] ptr1]|]; [|discriminate].
    apply rbind_ok in H as ([p2 rng'] & Ed & H). apply rbind_ok in H as (p3 & Ef & H). apply rbind_ok in H as (o2 & Es2 & H).
    destruct o2 as [[[[p4 t2] g2] ptr2]|]; [|discriminate]. injection H as -> -> ->.
    assert (Ih : si_height inst = hgt) by (unfold spinst_new in Hn; repeat (apply rbind_ok in Hn as (? & _ & Hn)); injection Hn as <-; reflexivity).
    assert (Y0 : y_min (strip_bbox p0) = Rmin 0 hgt /\ y_max (strip_bbox p0) = Rmax 0 hgt).
    { pose proof E0 as E1. unfold sp_new in E1. apply rbind_ok in E1 as (b & Eb & E1). injection E1 as <-.
      unfold strip_bbox. cbn [sp_layout layout_new ly_bin]. destruct (strip_poly M _ _ _ _ Eb) as (Ep & _). rewrite (rect_bbox _ _ Ep). rewrite Ih. split; reflexivity. }
    assert (N0 : no_more_than items [sp_layout p0]).
    { intros i it q _. unfold sp_new in E0. apply rbind_ok in E0 as (b & _ & E0). injection E0 as <-. cbn. lia. }
    destruct (solve_any_sp items hgt inst false tol _ c ptr [] p0 p0 [] fuel cfg g _ p1 s1 g1 ptr1 Hn Fi E0 Logic.I eq_refl N0 Es1)
      as ((o1 & C1 & R1) & Pl1 & Pk1 & K1 & _ & D1 & Y1 & Y1'). cbn [app] in C1, R1.
    destruct (drop_any_sp items hgt inst false tol _ c ptr o1 p0 p1 _ n rng p2 rng' Hn Fi E0 C1 R1 Ed) as ((ks & R2) & (gone & Lg & P2) & B2 & _).
    destruct (flush_keeps _ _ Ef) as (P3 & B3).
    assert (C3 : schecked_run false tol (p0, []) ((o1 ++ map (fun k => SRemove (Real 0) k false) ks) ++ [SFlush])).
    { apply schecked_app; [apply schecked_app; [exact C1|]; intros s' _; apply sremoves_checked|]. intros s' _. cbn [schecked_run]. split; [exact Logic.I|]. destruct (sstep false tol s' SFlush); exact Logic.I. }
    assert (R3 : rfold (sstep false tol) ((o1 ++ map (fun k => SRemove (Real 0) k false) ks) ++ [SFlush]) (p0, []) = Ok (p3, [s1])).
    { rewrite rfold_app, R2. cbn [rbind rfold sstep]. rewrite Ef. reflexivity. }
    assert (Cp : forall (q : sp) i, copies i [sp_layout q] = count i (map fst (placed (sp_layout q)))).
    { intros q i. unfold copies, items_in, placed. cbn [flat_map]. rewrite app_nil_r, map_map. reflexivity. }
    assert (N3 : no_more_than items [sp_layout p3]).
    { intros i it q Hi. rewrite <- (D1 i it q Hi). rewrite !Cp, P3. apply (Permutation_map fst) in P2. rewrite map_app in P2. rewrite (count_perm _ _ _ P2), count_app. lia. }
    destruct (solve_any_sp items hgt inst false tol _ c ptr _ p0 p3 _ fuel cfg g1 _ p s2 g2 ptr2 Hn Fi E0 C3 R3 N3 Es2)
      as ((o2 & C4 & R4) & Pl2 & Pk2 & K2 & (more & Pm) & D2 & Y2 & Y2').
    assert (Sol : forall s (q : sp), map snap_content (so_layouts s) = [content (sp_layout q)] -> exists sn, so_layouts s = [sn] /\ ls_bin sn = ly_bin (sp_layout q) /\ snap_placed sn = placed (sp_layout q)).
    { intros s q E. destruct (so_layouts s) as [|sn [|]]; try discriminate E. cbn in E. injection E as _ A B. exists sn. unfold snap_placed, placed. rewrite B. auto. }
    destruct (Sol _ _ K1) as (n1 & L1 & A1 & S1). destruct (Sol _ _ K2) as (n2 & L2 & A2 & S2). split.
    - intros s [-> | ->].
      + exists n1. split; [exact L1|]. rewrite A1, S1. split; [exact Pl1|]. split; [exact Pk1|]. split.
        * intros i it q Hi. unfold sol_items. rewrite L1. cbn [flat_map]. rewrite app_nil_r, S1, <- Cp. exact (D1 i it q Hi).
        * change (y_min (strip_bbox p1) = Rmin 0 hgt /\ y_max (strip_bbox p1) = Rmax 0 hgt). rewrite Y1, Y1'. exact Y0.
      + exists n2. split; [exact L2|]. rewrite A2, S2. split; [exact Pl2|]. split; [exact Pk2|]. split.
        * intros i it q Hi. unfold sol_items. rewrite L2. cbn [flat_map]. rewrite app_nil_r, S2, <- Cp. exact (D2 i it q Hi).
        * change (y_min (strip_bbox p) = Rmin 0 hgt /\ y_max (strip_bbox p) = Rmax 0 hgt). rewrite Y2, Y2'. unfold strip_bbox. rewrite B3, B2.
          change (y_min (strip_bbox p1) = Rmin 0 hgt /\ y_max (strip_bbox p1) = Rmax 0 hgt). rewrite Y1, Y1'. exact Y0.
    - exists n1, n2, gone, more, (placed (sp_layout p2)). split; [exact L1|]. split; [exact L2|]. rewrite S1, S2. split; [exact Lg|]. split; [exact P2|]. rewrite Pm, P3. reflexivity.
  Qed.
End A.
