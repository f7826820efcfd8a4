(** Importing an exported solution does not panic. *)
From Coq Require Import List Bool Arith ZArith Lia Permutation.
From Verif Require Import Base Num GeoModel HazardModel QTModel TransfModel HpgModel CdeModel CdeSpec
  PolyModel SlotMapModel LayoutModel ProblemModel ProblemSpec ParserModel LbfModel IoModel IoSpec BaseProofs HazVecProofs QTProofs CdeProofs CdeOpsProofs CdeHistProofs CdeThmProofs SlotMapProofs ProblemProofs
  ProblemOpsProofs ProblemThmProofs StripProofs LayoutProofs MirrorProofs MirrorThmProofs FitProofs Instances RigidProofs XformProofs RegionProofs GeoPrimProofs GeoRectProofs CdeGeoProofs CdeGeoThmProofs
  ParityProofs NormProofs PlaceExampleProofs RectPolyProofs HpgSpec HpgThmProofs LbfSpec LbfProofs LbfRunProofs LbfSamplerProofs LbfHistProofs LbfTotalProofs LbfBpProofs LbfThmProofs LbfBpTotalProofs LbfSpProofs LbfSpTotalProofs IoProofs HistBinProofs IoThmProofs.
From Coq Require Import Reals Lra.
From Verif Require Import GeoModel HazardModel QTModel TransfModel HpgModel CdeModel CdeSpec GeoSpec PlaceSpec HpgSpec ShapeSpec LbfModel LbfSpec IoModel IoSpec.
Import ListNotations.
Local Open Scope R_scope.

Section T.
  Variable M : R.
  #[local] Instance NIT : Num R := RNumT Reqb M.
  #[local] Existing Instance RTrig.
  Context {ED : EqD (dtransf R)} {BS : BSearch}.
  Hypothesis BSok : bsearch_ok BS.
  Local Notation D := (dtransf R).
  Local Notation bin := (bin R D).
  Local Notation layout := (layout R D).
  Local Notation lsnap := (lsnap R D).
  Local Notation bp := (bp R D).
  Local Notation sp := (sp R D).
  Variable pre : nat -> transf R.

  Lemma HL_flush : forall items (Snd : Forall (fun x => sound_item M (fst x)) items) (l : layout), HL M items l -> layout_flush l = Ok l.
  Proof.
    intros items Snd l H. destruct (HL_hpg M BSok items l H) as (g & Eg & _). unfold cde_hpg in Eg. apply rbind_ok in Eg as (g' & E' & Eg). apply expect_ok in E'.
    destruct (hpg_dirty g') eqn:Dg; [discriminate|]. injection Eg as ->. unfold layout_flush, cde_flush. rewrite E'. cbn [opt_hpg rbind].
    assert (Ef : forall dyn, hpg_flush g dyn = Ok g) by (intros dyn; unfold hpg_flush; rewrite Dg; reflexivity).
    assert (Ef' : forall dyn, hpg_flush (N := RNumT Reqb M) g dyn = Ok g) by exact Ef. rewrite Ef'. cbn [rbind]. rewrite <- E'. destruct l as [i b m [q st dy hg bb un]]. reflexivity.
  Qed.

  Section B.
  Variable inst : bpinst R D.
  Hypothesis Ids : ids_ok inst.
  Hypothesis Snd : Forall (fun x => sound_item M (fst x)) (bi_items inst).
  Local Notation items := (bi_items inst).
  Definition IT (p : bp) : Prop := BInv inst p [] /\ Forall (HL M items) (bp_layouts p) /\ Forall (HL M items) (bp_templates p).

  Lemma flush_IT : forall p, IT p -> bp_flush p = Ok p.
  Proof.
    intros p (_ & Hl & _). unfold bp_flush, flush_all. assert (E : rmapM layout_flush (bp_layouts p) = Ok (bp_layouts p)).
    { induction Hl as [|l ls H _ IH]; cbn [rmapM]; [reflexivity|]. rewrite (HL_flush items Snd l H). cbn [rbind]. rewrite IH. reflexivity. }
    rewrite E. cbn [rbind]. destruct p. reflexivity.
  Qed.
  Lemma place_any : forall p li l i it q d ptr, IT p -> target p li = Some l -> nth_error items i = Some (it, q) -> ~ In (i, d) (placed l) ->
    match li with Real _ => True | Template t => exists n, nth_error (bp_bins p) (bn_id (ly_bin l)) = Some (S n) end ->
    exists r p', bp_place p (PO li i d) ptr = Ok (r, p') /\ IT p'.
  Proof.
    intros p li l i it q d ptr (I & Hl & Ht) Tg Ni Nin St. pose proof (proj1 Ids _ _ _ Ni) as Eid.
    assert (HLl : HL M items l).
    { destruct li as [j|t]; cbn [target] in Tg; apply nth_error_In in Tg; [rewrite Forall_forall in Hl; exact (Hl l Tg)|rewrite Forall_forall in Ht; exact (Ht l Tg)]. }
    assert (E1 : exists j p1 l1, match li with
        | Real i => Ok (i, p)
        | Template t => tl <- expect (nth_error (bp_templates p) t) ;;
            bp_register_layout (BP (bp_inst p) (bp_layouts p) (bp_templates p) (bp_missing p) (bp_bins p) (S (bp_lctr p)) (bp_sctr p) (bp_unmod p) (bp_ref p) (bp_removed p)) (clone_with_id tl (S (bp_lctr p)))
        end = Ok (j, p1) /\ nth_error (bp_layouts p1) j = Some l1 /\ HL M items l1 /\ placed l1 = placed l /\ bp_inst p1 = bp_inst p /\ bp_missing p1 = bp_missing p /\ bp_templates p1 = bp_templates p /\ Forall (HL M items) (bp_layouts p1)).
    { destruct li as [j|t]; cbn [target] in Tg.
      - exists j, p, l. repeat (split; [auto; fail|]). exact Hl.
      - rewrite Tg. cbn [expect rbind]. unfold bp_register_layout. destruct St as (n & En). cbn [bp_bins bp_layouts bp_missing]. unfold register_bin.
        assert (En' : nth_error (bp_bins p) (bn_id (ly_bin (clone_with_id l (S (bp_lctr p))))) = Some (S n)) by exact En. rewrite En'. cbn [expect rbind].
        assert (V0 : sm_values (ly_items (clone_with_id l (S (bp_lctr p)))) = []).
        { rewrite (b_tmpl _ _ _ I) in Tg. apply nth_template in Tg as (b & qb & _ & ->). reflexivity. }
        rewrite V0. cbn [map rfold rbind].
        eexists _, _, (clone_with_id l (S (bp_lctr p))). split; [reflexivity|]. cbn [bp_layouts bp_inst bp_missing bp_templates]. 
        split; [rewrite nth_error_app2, Nat.sub_diag by lia; reflexivity|]. split; [apply HL_clone; exact HLl|]. split; [reflexivity|]. split; [reflexivity|]. split; [reflexivity|]. split; [reflexivity|].
        apply Forall_app. split; [exact Hl|]. constructor; [apply HL_clone; exact HLl|constructor]. }
    destruct E1 as (j & p1 & l1 & E1 & El & H1 & Pl & Ei & Emi & Etm & Hl1).
    pose proof (proj2 (proj2 (b_miss _ _ _ I)) _ _ _ Ni) as Em.
    rewrite <- Pl in Nin. rewrite <- Eid in Ni, Nin. destruct (HL_place M BSok items Snd l1 it q d ptr H1 Ni Nin) as (k & l' & Epl & H').
    assert (E : exists r p', bp_place p (PO li i d) ptr = Ok (r, p') /\ bp_layouts p' = vset j l' (bp_layouts p1) /\ bp_templates p' = bp_templates p).
    { unfold bp_place. cbn [po_layout po_item po_dt]. rewrite E1. cbn [rbind]. rewrite El. cbn [expect rbind]. rewrite Ei, (b_inst _ _ _ I). unfold item_of. rewrite <- Eid, Ni. cbn [expect rbind fst].
      assert (Epl' : layout_place l1 it d ptr = Ok (k, l')) by exact Epl. rewrite Epl'. cbn [rbind]. unfold register_included, missing_add. rewrite Emi, Eid, Em. cbn [expect rbind].
      eexists _, _. split; [reflexivity|]. cbn [bp_layouts bp_templates]. auto. }
    destruct E as (r & p' & E & L1 & L2). exists r, p'. split; [exact E|].
    split; [exact (place_inv _ _ _ _ _ _ _ Ids I E)|]. rewrite L1, L2. split; [apply vset_forall; assumption|exact Ht].
  Qed.
  Lemma put_any : forall p li l b x ptr, IT p -> target p li = Some l -> (fst x < length items)%nat -> ~ In (fst x, import_dt pre b x) (placed l) ->
    match li with Real _ => True | Template t => exists n, nth_error (bp_bins p) (bn_id (ly_bin l)) = Some (S n) end ->
    exists r p', bp_put pre b li (p, ptr) x = Ok (r, (p', S ptr)) /\ IT p'.
  Proof.
    intros p li l b x ptr H Tg Lx Nin St. destruct (nth_error items (fst x)) as [[it q]|] eqn:Ni; [|apply nth_error_None in Ni; lia].
    destruct (place_any p li l (fst x) it q (import_dt pre b x) ptr H Tg Ni Nin St) as ([r k] & p' & E & H'). exists r, p'. split; [|exact H'].
    unfold bp_put. rewrite (b_inst _ _ _ (proj1 H)). unfold item_of. rewrite Ni. cbn [expect rbind fst]. rewrite (proj1 Ids _ _ _ Ni), E. cbn [rbind]. rewrite (flush_IT p' H'). reflexivity.
  Qed.
  Lemma rest_any : forall b li xs p ptr v pl, IT p -> view p = v ++ [(b, pl)] -> li = Real (length v) ->
    Forall (fun x => (fst x < length items)%nat) xs -> NoDup (pl ++ imported pre b xs) ->
    exists p' ptr', rfold (fun st y => '(_, st') <- bp_put pre b li st y ;; Ok st') xs (p, ptr) = Ok (p', ptr') /\ IT p'.
  Proof.
    intros b li. induction xs as [|x xs IH]; intros p ptr v pl H V El Lx Nd; cbn [rfold]; [eauto|]. inversion Lx as [|? ? L1 L2]; subst.
    assert (Tg : exists l, target p (Real (length v)) = Some l /\ placed l = pl).
    { cbn [target]. apply (f_equal (fun l => nth_error l (length v))) in V. rewrite nth_error_app2, Nat.sub_diag in V by lia. unfold view in V. rewrite nth_error_map in V.
      destruct (nth_error (bp_layouts p) (length v)) as [l|]; [|discriminate]. cbn in V. injection V as _ V. eauto. }
    destruct Tg as (l & Tg & Pl). cbn [imported map] in Nd.
    destruct (put_any p (Real (length v)) l b x ptr H Tg L1) as (r & p1 & E & H1); [rewrite Pl; intros K; apply NoDup_remove_2 in Nd; apply Nd, in_or_app; left; exact K|exact Logic.I|].
    rewrite E. cbn [rbind]. destruct (put_view _ _ _ _ _ _ _ _ _ _ Ids (proj1 H) E) as (k & p0 & Ep & V1 & _).
    destruct (place_real_view _ _ _ _ _ _ _ _ _ _ Ids (proj1 H) V Ep) as (pl1 & V0 & P1). rewrite V0 in V1.
    apply (IH p1 (S ptr) v pl1 H1 V1 eq_refl L2). eapply Permutation_NoDup; [|exact Nd]. rewrite P1. cbn [app]. symmetry. apply Permutation_middle.
  Qed.
  Definition importable (j : jlayout R) : Prop :=
    exists k b q, jl_container j = JBin k /\ nth_error (bi_bins inst) k = Some (b, q) /\ jl_items j <> [] /\
      Forall (fun x => (fst x < length items)%nat) (jl_items j) /\ NoDup (imported pre b (jl_items j)).
  Definition jbin (j : jlayout R) : nat := match jl_container j with JBin k => k | JStrip _ _ => 0%nat end.
  Definition bins_of (p : bp) := map (fun l => bn_id (ly_bin l)) (bp_layouts p).
  Lemma bins_view : forall p, bins_of p = map (fun v => bn_id (fst v)) (view p).
  Proof. intros p. unfold bins_of, view. rewrite map_map. reflexivity. Qed.
  Lemma layout_any : forall j p ptr bins L, IT p -> importable j -> BSt (map snd (bi_bins inst)) bins (bins_of p ++ jbin j :: L) ->
    exists p' ptr', bp_import_layout pre inst (p, ptr) j = Ok (p', ptr') /\ IT p' /\ bins_of p' = bins_of p ++ [jbin j].
  Proof.
    intros j p ptr bins L H (k & b & q & Ec & Ek & Ne & Lx & Nd) St. pose proof (proj2 Ids _ _ _ Ek) as Eid.
    assert (X : exists p' ptr', bp_import_layout pre inst (p, ptr) j = Ok (p', ptr') /\ IT p').
    { unfold bp_import_layout. rewrite Ec, Ek. cbn [expect rbind fst].
      destruct (position (fun l : layout => Nat.eqb (bn_id (ly_bin l)) (bn_id b)) (bp_templates p)) as [t|] eqn:Et.
      2:{ exfalso. rewrite position_none in Et. assert (K : In (layout_new k b) (bp_templates p)).
          { rewrite (b_tmpl _ _ _ (proj1 H)). cbn [bp_new bp_templates]. apply in_map_iff. exists (k, (b, q)). split; [reflexivity|].
            apply (nth_error_In _ k). clear - Ek. assert (G : forall (l : list (bin * nat)) s k x, nth_error l k = Some x -> nth_error (combine (seq s (length l)) l) k = Some ((s + k)%nat, x)).
            { induction l as [|y l IH]; intros s [|i] x E; cbn in *; try discriminate; [injection E as ->; rewrite Nat.add_0_r; reflexivity|]. rewrite (IH (S s) i x E). do 2 f_equal. lia. }
            exact (G _ 0%nat _ _ Ek). }
          apply Et in K. cbn [layout_new ly_bin] in K. rewrite Nat.eqb_refl in K. discriminate. }
      cbn [expect rbind]. destruct (jl_items j) as [|x xs] eqn:Ej; [congruence|]. pose proof (Forall_inv Lx) as L1. pose proof (Forall_inv_tail Lx) as L2. cbv beta in L1. cbn [imported map] in Nd.
      assert (Tg : exists l, target p (Template t) = Some l /\ bn_id (ly_bin l) = bn_id b /\ placed l = []).
      { apply position_some in Et as (l1 & l0 & l2 & El0 & Et & Ef & _). cbn [target]. exists l0. apply Nat.eqb_eq in Ef. split; [|split; [exact Ef|]].
        - rewrite El0, <- Et, nth_error_app2, Nat.sub_diag by lia. reflexivity.
        - pose proof (b_tmpl _ _ _ (proj1 H)) as Tm. rewrite El0 in Tm. assert (K : In l0 (bp_templates (bp_new inst))) by (rewrite <- Tm; apply in_or_app; right; left; reflexivity).
          apply In_nth_error in K as (n & K). apply nth_template in K as (b0 & q0 & _ & ->). reflexivity. }
      destruct Tg as (l & Tg & Eb & Pl).
      destruct (put_any p (Template t) l b x ptr H Tg L1) as (r & p1 & E & H1).
      - rewrite Pl. intros [].
      - rewrite Eb, Eid. pose proof (b_stock _ _ _ (proj1 H)) as (_ & S1). destruct St as (_ & S2).
        assert (Eq : nth_error (map snd (bi_bins inst)) k = Some q) by (rewrite nth_error_map, Ek; reflexivity).
        destruct (S1 _ _ Eq) as (a & Ea & Sa). destruct (S2 _ _ Eq) as (a' & _ & Sa'). assert (Jk : jbin j = k) by (unfold jbin; rewrite Ec; reflexivity). rewrite Jk in Sa'.
        fold (bins_of p) in Sa. rewrite count_app in Sa'. cbn [count filter] in Sa'. unfold count at 2 in Sa'. cbn [filter] in Sa'. rewrite Nat.eqb_refl in Sa'. cbn [length] in Sa'.
        destruct a as [|n]; [lia|]. exists n. exact Ea.
      - rewrite E. cbn [rbind]. destruct (put_view _ _ _ _ _ _ _ _ _ _ Ids (proj1 H) E) as (kk & p0 & Ep & V1 & _).
        destruct (place_new_view _ _ _ _ _ _ _ _ Ids (proj1 H) Ep) as (b' & q' & Eb' & Er & V0). cbn [fst] in Er. rewrite V0 in V1.
        assert (Bb : b' = b).
        { cbn [target] in Tg. rewrite (b_tmpl _ _ _ (proj1 H)) in Tg. apply nth_template in Tg as (b0 & q0 & E0 & ->). cbn [layout_new ly_bin] in Eb.
          rewrite Eb' in E0. injection E0 as <- <-. pose proof (proj2 Ids _ _ _ Eb') as Id2. rewrite <- Eid, <- Eb, Id2, Eb' in Ek. congruence. }
        subst b'. apply (rest_any b r xs p1 (S ptr) (view p) [(fst x, import_dt pre b x)] H1 V1); [rewrite Er; unfold view; rewrite map_length; reflexivity|exact L2|exact Nd]. }
    destruct X as (p' & ptr' & E & H'). exists p', ptr'. split; [exact E|]. split; [exact H'|].
    destruct (import_layout_view pre _ _ _ _ _ _ Ids (proj1 H) E) as (_ & v & V & (k' & q' & Ec' & Ek' & _)). rewrite !bins_view, V, map_app. cbn [map]. f_equal. f_equal.
    unfold jbin. rewrite Ec'. exact (proj2 Ids _ _ _ Ek').
  Qed.
  Lemma layouts_any : forall js p ptr bins, IT p -> Forall importable js -> BSt (map snd (bi_bins inst)) bins (bins_of p ++ map jbin js) ->
    exists p' ptr', rfold (bp_import_layout pre inst) js (p, ptr) = Ok (p', ptr') /\ IT p'.
  Proof.
    induction js as [|j js IH]; intros p ptr bins H Fj St; cbn [rfold]; [eauto|]. inversion Fj as [|? ? F1 F2]; subst. cbn [map] in St.
    destruct (layout_any j p ptr bins _ H F1 St) as (p1 & ptr1 & E & H1 & B1). rewrite E. cbn [rbind]. apply (IH p1 ptr1 bins H1 F2). rewrite B1, <- app_assoc. exact St.
  Qed.
  Hypothesis Gb : Forall (fun b => good_bin (fst b)) (bi_bins inst).
  Hypothesis Fb : fine_bins (bi_bins inst).
  Hypothesis Nc : Forall (fun b => cfg_cells (bn_cfg (fst b)) <> 0%nat) (bi_bins inst).
  Lemma new_IT : IT (bp_new inst).
  Proof.
    split; [apply new_inv|]. split; [constructor|]. cbn [bp_new bp_templates]. rewrite Forall_map, Forall_forall. intros [i [b q]] Hx. apply in_combine_r in Hx. cbn [fst snd].
    unfold fine_bins in Fb. rewrite Forall_forall in Gb, Fb, Nc. apply (HL_new M BSok items); [exact (Gb _ Hx)|exact (Fb _ Hx)|exact (Nc _ Hx)].
  Qed.
  Lemma import_any : forall js ptr bins, Forall importable js -> BSt (map snd (bi_bins inst)) bins (map jbin js) -> exists s, bp_import pre inst js ptr = Ok s.
  Proof.
    intros js ptr bins Fj St. destruct (layouts_any js (bp_new inst) ptr bins new_IT Fj St) as (p & ptr' & E & (I & Hl & _)). unfold bp_import. rewrite E. cbn [rbind].
    destruct (create_ok M BSok inst p I Hl) as (s & p' & Es). assert (Es' : bp_create p None = Ok (s, p')) by exact Es. rewrite Es'. cbn [rbind]. eauto.
  Qed.
  End B.

  Hypothesis Pre : forall i, motion (pre i).
  Lemma nodup_finer : forall {A B C} (f : A -> B) (g : A -> C) l, (forall x y, f x = f y -> g x = g y) -> NoDup (map g l) -> NoDup (map f l).
  Proof.
    intros A B C f g l K. induction l as [|x l IH]; cbn [map]; intros H; [constructor|]. inversion H as [|? ? H1 H2]; subst. constructor; [|exact (IH H2)].
    intros Hx. apply H1. apply in_map_iff in Hx as (y & Ey & Hy). apply in_map_iff. exists y. split; [exact (K _ _ Ey)|exact Hy].
  Qed.
  Lemma distinct_back : forall (b b' : bin) l, motion (bn_pre b) -> motion (bn_pre b') ->
    NoDup (map (fun x : nat * D => (fst x, compose (N := RNum) (snd x))) l) -> NoDup (imported pre b' (exported pre b l)).
  Proof.
    intros b b' l Mo Mo' Nd. unfold imported, exported. rewrite map_map. revert Nd. apply nodup_finer. intros x y E. cbn [fst] in E.
    pose proof (proj2 (back_motion M pre Pre b b' x Mo Mo')) as Kx. pose proof (proj2 (back_motion M pre Pre b b' y Mo Mo')) as Ky.
    match type of E with ?l = ?r => assert (Kx' : forall p q, lands pre b x p q <-> lands pre b' l p q) by exact Kx; assert (Ky' : forall p q, lands pre b y p q <-> lands pre b' r p q) by exact Ky end. clear Kx Ky. rename Kx' into Kx. rename Ky' into Ky.
    rewrite E in Kx. destruct x as [i d], y as [i' d']. cbn [fst snd] in *. injection E as <- _. f_equal.
    apply affine_ext; [apply rt_affine|apply rt_affine|]. intros p.
    pose proof (proj1 (Kx (tr_point (N := RNum) (t_inverse (N := RNum) (pre i)) p) (tr_point (N := RNum) (t_inverse (N := RNum) (bn_pre b)) (tr_point (N := RNum) (compose (N := RNum) d) p)))) as K.
    unfold lands at 1 in K. cbn [fst snd] in K. rewrite (inv_right _ _ Mo), (inv_right _ _ (Pre i)) in K. specialize (K eq_refl). apply Ky in K.
    unfold lands in K. cbn [fst snd] in K. rewrite (inv_right _ _ Mo), (inv_right _ _ (Pre i)) in K. exact K.
  Qed.
  Lemma bp_import_total : forall items bins (inst : bpinst R D) ovf ops p h s, bpinst_new items bins = Ok inst ->
    Forall (fun x => motion (bn_pre (fst x))) bins -> Forall (fun x => sound_item M (fst x)) items ->
    Forall (fun b => good_bin (fst b)) bins -> fine_bins bins -> Forall (fun b => cfg_cells (bn_cfg (fst b)) <> 0%nat) bins ->
    bp_run ovf inst ops = Ok (p, h) -> In s h -> Forall distinct_motions (so_layouts s) ->
    exists js, bp_export pre inst s = Ok js /\ forall ptr, exists s', bp_import pre inst (js_layouts js) ptr = Ok s'.
  Proof.
    intros items bins inst ovf ops p h s Hn Hb Snd Gb Fb Nc Hr Hs Ds. pose proof (inst_ids _ _ _ Hn) as Ids. destruct (inst_lists M _ _ _ Hn) as (Ei & Eb).
    pose proof (run_inv _ _ _ _ _ Ids Hr) as I. pose proof (b_sols _ _ _ I) as So. rewrite Forall_forall in So. specialize (So s Hs).
    pose proof (sol_bins M _ _ _ _ _ _ _ _ Hn Hr Hs) as Kb. pose proof (proj1 (proj2 (sk_placed _ _ _ So))) as Rg.
    eexists. split; [apply export_ok; exact Rg|]. intros ptr. cbn [js_layouts].
    rewrite <- Ei in Snd. rewrite <- Eb in Gb, Fb, Nc, Hb.
    apply (import_any inst Ids Snd Gb Fb Nc _ ptr (so_bins s)).
    - rewrite Forall_map, Forall_forall. intros sn Hsn. rewrite Forall_forall in Kb, Ds. destruct (Kb sn Hsn) as (q & Eq). pose proof (sk_ne _ _ _ So) as Ne. rewrite Forall_forall in Ne, Hb.
      exists (bn_id (ls_bin sn)), (ls_bin sn), q. cbn [jl_container jl_items]. split; [reflexivity|]. split; [exact Eq|]. split; [|split].
      + intros K. unfold exported in K. apply map_eq_nil in K. unfold snap_placed in K. apply map_eq_nil in K. exact (Ne sn Hsn K).
      + unfold exported. rewrite Forall_map. rewrite Forall_forall in Rg |- *. intros x Hx. cbn [fst]. apply Rg. apply in_flat_map. exists (snap_content sn). split; [apply in_map; exact Hsn|].
        unfold snap_placed in Hx. apply in_map_iff in Hx as (pi & <- & Hpi). cbn [fst]. apply in_map_iff. exists pi. auto.
      + pose proof (Hb _ (nth_error_In _ _ Eq)) as Mo. exact (distinct_back _ _ _ Mo Mo (Ds sn Hsn)).
    - rewrite map_map. exact (sk_bins _ _ _ So).
  Qed.

  (** *** strips *)
  Lemma sput_any : forall (inst : spinst R) xs (p : sp) ptr, sids_ok inst -> Forall (fun x => sound_item M (fst x)) (si_items inst) -> SInv inst p [] -> HL M (si_items inst) (sp_layout p) ->
    Forall (fun x => (fst x < length (si_items inst))%nat) xs -> NoDup (placed (sp_layout p) ++ imported pre (ly_bin (sp_layout p)) xs) ->
    exists p' ptr', rfold (sp_put pre) xs (p, ptr) = Ok (p', ptr') /\ SInv inst p' [] /\ HL M (si_items inst) (sp_layout p').
  Proof.
    intros inst. induction xs as [|x xs IH]; intros p ptr Ids Snd I H Lx Nd; cbn [rfold]; [eauto|].
    pose proof (Forall_inv Lx) as L1. pose proof (Forall_inv_tail Lx) as L2. cbv beta in L1. cbn [imported map] in Nd.
    destruct (nth_error (si_items inst) (fst x)) as [[it q]|] eqn:Ni; [|apply nth_error_None in Ni; lia].
    destruct (splace_ok M BSok inst Ids Snd p (fst x) it q (import_dt pre (ly_bin (sp_layout p)) x) ptr I H Ni) as (r & p1 & E & H1 & I1 & P1 & B1).
    { intros K. apply NoDup_remove_2 in Nd. apply Nd, in_or_app. left. exact K. }
    assert (E' : sp_put pre (p, ptr) x = Ok (p1, S ptr)).
    { unfold sp_put. rewrite (s_inst _ _ _ I). unfold item_of. rewrite Ni. cbn [expect rbind fst]. rewrite (Ids _ _ _ Ni).
      assert (E1 : sp_place p (PO (Real 0) (fst x) (import_dt pre (ly_bin (sp_layout p)) x)) ptr = Ok (r, p1)) by exact E. rewrite E1. cbn [rbind].
      unfold sp_flush. rewrite (HL_flush _ Snd _ H1). cbn [rbind]. destruct p1. reflexivity. }
    rewrite E'. cbn [rbind]. apply (IH p1 (S ptr) Ids Snd I1 H1 L2). rewrite B1. eapply Permutation_NoDup; [|exact Nd]. rewrite P1. cbn [app]. symmetry. apply Permutation_middle.
  Qed.
  Lemma sp_import_total : forall items hgt (inst : spinst R) ovf tol w c ptr0 ops p h s c', spinst_new items hgt = Ok inst -> 0 <= hgt ->
    Forall (fun x => sound_item M (fst x)) items -> cfg_cells c' <> 0%nat -> strips_constructible c' hgt ->
    Forall (keeps_height hgt) ops -> sp_run ovf tol inst w c ptr0 ops = Ok (p, h) -> In s h -> Forall distinct_motions (so_layouts s) ->
    exists js, sp_export pre inst s = Ok js /\ forall ptr, exists s', sp_import pre inst (js_layouts js) c' ptr = Ok s'.
  Proof.
    intros items hgt inst ovf tol w c ptr0 ops p h s c' Hn Hh Snd Nc Con Ho Hr Hs Ds. pose proof (sinst_ids _ _ _ Hn) as Ids.
    destruct (sol_strip M _ _ _ _ _ _ _ _ _ _ _ _ Hn Hh Ho Hr Hs) as (sn & Sn & B & Eh & Ei). rewrite <- Ei in Sn, Snd.
    destruct B as (Mo & (X & _) & Y1 & Y2). pose proof (ss_one _ _ _ Sn) as So. pose proof (proj1 (proj2 (ss_placed _ _ _ Sn))) as Rg.
    eexists. split; [apply export_ok; rewrite So; cbn [map flat_map]; rewrite app_nil_r; exact Rg|]. intros ptr. cbn [js_layouts]. rewrite So. cbn [map sp_import]. unfold sp_import_layout. cbn [jl_container jl_items].
    set (w' := r_width (p_bbox (a_obj (bn_outer (ls_bin sn))))). assert (Wp : 0 < w') by (change (0 < x_max (p_bbox (a_obj (bn_outer (ls_bin sn)))) - x_min (p_bbox (a_obj (bn_outer (ls_bin sn))))); lra).
    destruct (Con 0 w' ptr Wp) as (b & Eb). assert (Er : Rc 0 0 (0 + w') hgt = Rc 0 0 w' hgt) by (f_equal; lra). rewrite Er, <- Eh in Eb. clear Er.
    assert (Eb' : bin_from_strip (Rc f0 f0 w' (si_height inst)) c' ptr = Ok b) by exact Eb.
    pose proof (strip_pre M _ _ _ _ Eb') as (Mo' & _).
    assert (En : sp_new inst w' c' ptr = Ok (ProblemModel.SP inst (layout_new 0 b) (map (fun p => Z.of_nat (snd p)) (si_items inst)) 0 0)) by (unfold sp_new; rewrite Eb'; reflexivity).
    pose proof (sp_new_inv _ _ _ _ _ En) as I0. rewrite En. cbn [rbind].
    destruct (sput_any inst (exported pre (ls_bin sn) (snap_placed sn)) _ (S ptr) Ids Snd I0) as (p' & ptr' & E & I' & H').
    - cbn [sp_layout]. exact (strip_HL M BSok inst c' Nc 0 _ _ _ Eb').
    - unfold exported. rewrite Forall_map. rewrite Forall_forall in Rg |- *. intros x Hx. cbn [fst]. apply Rg. unfold snap_placed in Hx. apply in_map_iff in Hx as (pi & <- & Hpi). cbn [fst]. apply in_map_iff. exists pi. auto.
    - cbn [sp_layout layout_new ly_bin]. change (placed (layout_new 0 b)) with (@nil (nat * D)). cbn [app]. apply distinct_back; [exact Mo|exact Mo'|]. rewrite So in Ds. inversion Ds; subst. assumption.
    - rewrite E. cbn [rbind]. destruct (screate_ok M BSok inst c' Nc p' I' H') as (s' & p'' & Es). assert (Es' : sp_create p' = Ok (s', p'')) by exact Es. rewrite Es'. cbn [rbind]. eauto.
  Qed.
End T.
