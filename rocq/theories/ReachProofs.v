(** Every family of packings within demand and stock is reached by checked placements. *)
From Coq Require Import List Bool Arith ZArith Lia Permutation.
From Verif Require Import Base Num GeoModel HazardModel QTModel TransfModel HpgModel CdeModel CdeSpec
  PolyModel SlotMapModel LayoutModel ProblemModel ProblemSpec LbfModel BaseProofs HazVecProofs QTProofs CdeProofs CdeOpsProofs CdeHistProofs CdeThmProofs SlotMapProofs ProblemProofs
  ProblemOpsProofs ProblemThmProofs LayoutProofs MirrorProofs Instances RigidProofs XformProofs RegionProofs GeoPrimProofs GeoRectProofs CdeGeoProofs CdeGeoThmProofs
  ParityProofs NormProofs HpgSpec LbfSpec LbfProofs LbfRunProofs LbfSamplerProofs LbfHistProofs LbfTotalProofs LbfBpProofs LbfThmProofs LbfBpTotalProofs StripProofs LbfSpProofs LbfSpTotalProofs HistPackSpec HistPackProofs.
From Coq Require Import Reals Lra.
From Verif Require Import GeoModel HazardModel QTModel TransfModel HpgModel CdeModel CdeSpec GeoSpec PlaceSpec HpgSpec ShapeSpec LbfModel LbfSpec HistPackSpec.
Import ListNotations.
Local Open Scope nat_scope.

Section R.
  Variable M : R.
  #[local] Instance NRE : Num R := RNumT Reqb M.
  #[local] Existing Instance RTrig.
  Context {ED : EqD (dtransf R)} {BS : BSearch}.
  Hypothesis BSok : bsearch_ok BS.
  Local Notation dtransf := (dtransf R).
  Local Notation layout := (layout R dtransf).
  Local Notation bp := (bp R dtransf).
  Local Notation bin := (bin R dtransf).
  Variable inst : bpinst R dtransf.
  Hypothesis Ids : ids_ok inst.
  Hypothesis Snd : Forall (fun x => sound_item M (fst x)) (bi_items inst).
  Local Notation items := (bi_items inst).
  Local Notation fam := family.

  Definition tolb (q : option nat) (e : entity dtransf) : bool :=
    match e with InferiorQualityZone k _ => match q with Some b => Nat.leb b k | None => false end | _ => false end.
  Lemma tolb_spec : forall q e, tolb q e = true <-> tolerates q e.
  Proof.
    intros q e. unfold tolerates. destruct e; cbn [tolb]; split; try discriminate; try (intros (k & j & E & _); discriminate).
    - intros H. destruct q as [b|]; [|discriminate]. apply Nat.leb_le in H. eauto.
    - intros (k & j & E & H). injection E as -> ->. destruct q as [b|]; [|contradiction]. apply Nat.leb_le. exact H.
  Qed.
  Lemma some_tolerated : forall (l : layout) it, exists irr, tolerated l it irr.
  Proof.
    intros l it. exists (filter (tolb (it_quality it)) (map (@h_ent R dtransf) (all_hazards (ly_cde l)))). intros e. rewrite filter_In, tolb_spec. reflexivity.
  Qed.
  (** layouts hold what the family says *)
  Local Notation holds := (holds (bi_bins inst)).
  Lemma packed_turned : forall (b : bin) pl i d, packed items b pl -> In (i, d) pl -> exists it q, nth_error items i = Some (it, q) /\ turned_ok it d.
  Proof. intros b pl i d (_ & _ & _ & K) H. destruct (K _ H) as (it & q & a & E & A & B). exists it, q. split; [exact E|]. exists a. split; assumption. Qed.
  Lemma F2_len : forall {A B} (P : A -> B -> Prop) l m, Forall2 P l m -> length l = length m.
  Proof. intros A B P l m H. induction H; cbn; congruence. Qed.
  Lemma items_of_fam : forall ls (ds : fam), Forall2 holds ls ds -> Permutation (items_in ls) (flat_map (fun x => map fst (snd x)) ds).
  Proof.
    intros ls ds H. induction H as [|l x ls ds (b & q & _ & _ & P) H IH]; cbn; [constructor|]. apply Permutation_app; [|exact IH].
    apply (Permutation_map fst) in P. unfold placed in P. rewrite map_map in P. exact P.
  Qed.
  Lemma bins_of_fam : forall ls (ds : fam), Forall2 holds ls ds -> map (fun l => bn_id (ly_bin l)) ls = map fst ds.
  Proof.
    intros ls ds H. induction H as [|l x ls ds (b & q & E & Eb & _) H IH]; cbn; [reflexivity|]. rewrite IH, Eb. f_equal. exact (proj2 Ids _ _ _ E).
  Qed.

  (** what one placement does to the layouts *)
  Lemma place_layouts : forall (p : bp) h o ptr r p' l it q, BInv inst p h -> bp_place p o ptr = Ok (r, p') -> target p (po_layout o) = Some l ->
    nth_error items (po_item o) = Some (it, q) -> sm_ok (ly_items l) ->
    exists l', ly_bin l' = ly_bin l /\ Permutation (placed l') ((po_item o, po_dt o) :: placed l) /\
      match po_layout o with Real j => bp_layouts p' = vset j l' (bp_layouts p) | Template _ => bp_layouts p' = bp_layouts p ++ [l'] end.
  Proof.
    intros p h o ptr r p' l it q I H Tg Ni Sm. unfold bp_place in H. apply rbind_ok in H as ([j p1] & E1 & H). apply rbind_ok in H as (l1 & El & H). apply expect_ok in El.
    apply rbind_ok in H as (it1 & Eit & H). apply rbind_ok in H as ([k l'] & Epl & H). apply rbind_ok in H as (m & _ & H). injection H as <- <-.
    assert (K : bp_inst p1 = inst /\ ly_bin l1 = ly_bin l /\ ly_items l1 = ly_items l /\
      match po_layout o with Real i => j = i /\ bp_layouts p1 = bp_layouts p | Template _ => j = length (bp_layouts p) /\ exists l2, bp_layouts p1 = bp_layouts p ++ [l2] end).
    { destruct (po_layout o) as [j0|t]; cbn [target] in Tg.
      - injection E1 as <- <-. rewrite Tg in El. injection El as <-. split; [exact (b_inst _ _ _ I)|]. auto.
      - apply rbind_ok in E1 as (tl & Et & E1). apply expect_ok in Et. rewrite Tg in Et. injection Et as <-.
        unfold bp_register_layout in E1. apply rbind_ok in E1 as (bins & _ & E1). apply rbind_ok in E1 as (mm & _ & E1).
        injection E1 as <- <-. cbn [bp_inst bp_layouts] in *. rewrite nth_error_app2, Nat.sub_diag in El by lia. cbn in El. injection El as <-.
        split; [exact (b_inst _ _ _ I)|]. split; [reflexivity|]. split; [reflexivity|]. split; [reflexivity|eauto]. }
    destruct K as (K1 & K2 & K3 & K4). rewrite K1 in Eit. apply item_of_inv in Eit as (q1 & Eit). rewrite Ni in Eit. injection Eit as <- <-.
    apply place_content in Epl as (_ & Eb & Ins). rewrite K2 in Eb. rewrite K3 in Ins. exists l'. split; [exact Eb|]. split.
    - pose proof (insert_perm (ly_items l) (pi_new it (po_dt o) ptr) Sm) as P. rewrite Ins in P. cbn [snd] in P.
      unfold placed. apply (Permutation_map (fun p : pitem R dtransf => (pi_item p, pi_dt p))) in P. cbn [map pi_new pi_item pi_dt] in P.
      rewrite (proj1 Ids _ _ _ Ni) in P. exact P.
    - cbn [bp_layouts]. destruct (po_layout o) as [j0|t]; [destruct K4 as (-> & ->); reflexivity|]. destruct K4 as (-> & l2 & ->).
      clear. induction (bp_layouts p) as [|a r IH]; cbn; [reflexivity|]. rewrite IH. reflexivity.
  Qed.
  Lemma one_more : forall (p : bp) li l b q i d n, TInv M inst p -> target p li = Some l -> nth_error (bi_bins inst) b = Some (ly_bin l, q) ->
    packed items (ly_bin l) ((i, d) :: placed l) ->
    (forall it q0, nth_error items i = Some (it, q0) -> count i (items_in (bp_layouts p)) < q0) ->
    match li with Real _ => True | Template _ => nth_error (bp_bins p) b = Some (S n) end ->
    exists r p' l', bp_place p (PO li i d) 0 = Ok (r, p') /\ TInv M inst p' /\ checked p (PO li i d) /\ ly_bin l' = ly_bin l /\
      Permutation (placed l') ((i, d) :: placed l) /\
      match li with Real j => bp_layouts p' = vset j l' (bp_layouts p) | Template _ => bp_layouts p' = bp_layouts p ++ [l'] end.
  Proof.
    intros p li l b q i d n T Tg Hb Pk Dm St. pose proof T as (I & Pi & _). pose proof (target_HL M inst p li l T Tg) as HLl.
    destruct (packed_turned _ _ i d Pk (or_introl eq_refl)) as (it & q0 & Ni & Tn). destruct (some_tolerated l it) as (irr & Tl).
    assert (Pl : packed items (ly_bin l) (placed l)).
    { apply (packed_incl M items _ ((i, d) :: placed l)); [pose proof (proj1 Pk) as Nd; inversion Nd; assumption|intros x Hx; right; exact Hx|exact Pk]. }
    assert (Ch : checked p (PO li i d)).
    { exists l, it, q0, irr. cbn [po_layout po_item po_dt]. split; [exact Tg|]. split; [rewrite (b_inst _ _ _ I); exact Ni|]. split; [exact Tl|]. split; [|exact Tn].
      apply (accepted_packs M items l it q0 irr i d); try assumption; [exact (fine_of M inst Snd)|apply HLl|apply HLl]. }
    pose proof (proj2 (proj2 (b_miss _ _ _ I)) _ _ _ Ni) as Em. specialize (Dm _ _ Ni).
    destruct (place_total M BSok inst Ids Snd p (PO li i d) 0 _ T Ch Em) as (r & p' & E & T').
    - lia.
    - cbn [po_layout]. destruct li as [j|t]; [exact Logic.I|]. intros l0 E0. rewrite Tg in E0. injection E0 as <-. rewrite (proj2 Ids _ _ _ Hb). eauto.
    - destruct (place_layouts p _ (PO li i d) 0 r p' l it q0 I E Tg Ni) as (l' & E1 & E2 & E3).
      + exact (proj1 (proj1 (proj2 (proj1 HLl)))).
      + exists r, p', l'. cbn [po_layout po_item po_dt] in *. auto 10.
  Qed.
  Lemma vset_last : forall {A} (l : list A) x y, vset (length l) y (l ++ [x]) = l ++ [y].
  Proof. intros A l x y. induction l as [|a l IH]; cbn; [reflexivity|]. rewrite IH. reflexivity. Qed.
  Lemma count_app : forall i a b, count i (a ++ b) = count i a + count i b.
  Proof. intros i a b. unfold count. rewrite filter_app, app_length. reflexivity. Qed.
  Lemma flat_last : forall (ds : fam) b xs, flat_map (fun x => map fst (snd x)) (ds ++ [(b, xs)]) = flat_map (fun x => map fst (snd x)) ds ++ map fst xs.
  Proof. intros ds b xs. rewrite flat_map_app. cbn. rewrite app_nil_r. reflexivity. Qed.
  Lemma holds_perm : forall l b xs ys, Permutation xs ys -> holds l (b, xs) -> holds l (b, ys).
  Proof. intros l b xs ys P (bn & q & A & B & C). exists bn, q. split; [exact A|]. split; [exact B|]. etransitivity; [exact C|exact P]. Qed.

  (** the rest of a layout *)
  Lemma fill_last : forall ovf b bn q ys xs (ds : fam) p, nth_error (bi_bins inst) b = Some (bn, q) -> TInv M inst p -> Forall2 holds (bp_layouts p) (ds ++ [(b, xs)]) ->
    packed items bn (ys ++ xs) ->
    (forall i it q0, nth_error items i = Some (it, q0) -> count i (flat_map (fun x => map fst (snd x)) (ds ++ [(b, ys ++ xs)])) <= q0) ->
    exists ops p', rfold (bstep ovf) (place_ops ops) (p, []) = Ok (p', []) /\ all_checked p ops /\ TInv M inst p' /\ Forall2 holds (bp_layouts p') (ds ++ [(b, ys ++ xs)]).
  Proof.
    intros ovf b bn q. induction ys as [|[i d] ys IH]; intros xs ds p Hb T F Pk Dm.
    - exists [], p. split; [reflexivity|]. split; [exact Logic.I|]. split; [exact T|exact F].
    - pose proof F as F0. apply Forall2_app_inv_r in F as (ls & lr & F1 & F2 & El). inversion F2 as [|l y ? ? Hl F3]; subst. inversion F3; subst. clear F3.
      pose proof Hl as (b0 & q0 & Hb0 & Eb & Pm). cbn [fst snd] in *. rewrite Hb in Hb0. injection Hb0 as <- <-. subst bn.
      assert (Tg : target p (Real (length ls)) = Some l) by (cbn [target]; rewrite El, nth_error_app2, Nat.sub_diag by lia; reflexivity).
      assert (P1 : Permutation ((i, d) :: ys ++ xs) (ys ++ (i, d) :: xs)) by apply Permutation_middle.
      destruct (one_more p (Real (length ls)) l b q i d 0 T Tg Hb) as (r & p1 & l' & E & T1 & Ch & Eb1 & Pm1 & L1); [| |exact Logic.I|].
      { apply (packed_incl M items _ (((i, d) :: ys) ++ xs)); [| |exact Pk].
        - pose proof (proj1 Pk) as Nd. eapply Permutation_NoDup; [apply perm_skip; symmetry; exact Pm|]. cbn [app] in Nd. inversion Nd as [|? ? N1 N2]; subst.
          constructor; [intros X; apply N1; apply in_or_app; right; exact X|]. clear -N2. induction ys as [|y ys IH]; [exact N2|]. inversion N2. auto.
        - intros x [<-|Hx]; [left; reflexivity|]. apply (Permutation_in _ Pm) in Hx. right. apply in_or_app. right. exact Hx. }
      { intros it qi Hi. pose proof (Dm _ _ _ Hi) as D. rewrite flat_last, count_app in D. rewrite (count_perm i _ _ (items_of_fam _ _ F0)), flat_last, count_app.
        cbn [app map fst] in D. rewrite map_app in D. unfold count in *. cbn [filter] in D. rewrite Nat.eqb_refl in D. cbn [length] in D. rewrite filter_app, app_length in D. lia. }
      destruct (IH ((i, d) :: xs) ds p1 Hb T1) as (ops & p' & R & C & T' & F').
      + rewrite L1, El, vset_last. apply Forall2_app; [exact F1|]. constructor; [|constructor]. exists (ly_bin l), q. cbn [fst snd].
        split; [exact Hb|]. split; [exact Eb1|]. etransitivity; [exact Pm1|]. apply perm_skip. exact Pm.
      + eapply (packed_perm M); [exact P1|exact Pk].
      + intros j it qj Hj. rewrite <- (Dm j it qj Hj), !flat_last, !count_app. apply Nat.eq_le_incl. f_equal. apply count_perm. apply Permutation_map. symmetry. exact P1.
      + exists ((PO (Real (length ls)) i d, 0) :: ops), p'.
        assert (St : bstep ovf (p, []) (BPlace (PO (Real (length ls)) i d) 0) = Ok (p1, [])) by (cbn [bstep]; rewrite E; reflexivity).
        split; [cbn [place_ops map rfold fst snd]; rewrite St; exact R|]. split.
        { cbn [all_checked]. split; [exact Ch|]. intros k p2 E2. rewrite E in E2. injection E2 as <- <-. exact C. }
        split; [exact T'|]. apply Forall2_app_inv_r in F' as (la & lb & Fa & Fb & Ela). rewrite Ela. apply Forall2_app; [exact Fa|].
        inversion Fb as [|l2 y ? ? Hl2 Fc]; subst. inversion Fc; subst. constructor; [|constructor]. eapply holds_perm; [symmetry; exact P1|exact Hl2].
  Qed.
  Lemma fill_family : forall ovf (rs ds : fam) p, TInv M inst p -> Forall2 holds (bp_layouts p) ds ->
    Forall (fun x => snd x <> [] /\ exists bn q, nth_error (bi_bins inst) (fst x) = Some (bn, q) /\ packed items bn (snd x)) rs ->
    (forall i it q, nth_error items i = Some (it, q) -> count i (flat_map (fun x => map fst (snd x)) (ds ++ rs)) <= q) ->
    (forall b bn q, nth_error (bi_bins inst) b = Some (bn, q) -> count b (map fst (ds ++ rs)) <= q) ->
    exists ops p', rfold (bstep ovf) (place_ops ops) (p, []) = Ok (p', []) /\ all_checked p ops /\ TInv M inst p' /\ Forall2 holds (bp_layouts p') (ds ++ rs).
  Proof.
    intros ovf. induction rs as [|[b pl] rs IH]; intros ds p T F Pk Dm St.
    - exists [], p. rewrite app_nil_r. split; [reflexivity|]. split; [exact Logic.I|]. split; assumption.
    - inversion Pk as [|? ? (Ne & bn & q & Hb & Pb) Pk']; subst. cbn [fst snd] in *. destruct pl as [|[i d] ys]; [congruence|]. pose proof T as (I & _).
      destruct (nth_error (bp_templates p) b) as [tl|] eqn:Et.
      2:{ exfalso. rewrite (b_tmpl _ _ _ I) in Et. cbn [bp_new bp_templates] in Et. apply nth_error_None in Et. rewrite map_length, combine_length, seq_length, Nat.min_id in Et.
          assert (b < length (bi_bins inst)) by (apply nth_error_Some; congruence). lia. }
      pose proof Et as Et0. rewrite (b_tmpl _ _ _ I) in Et. apply nth_template in Et as (b1 & q1 & Hb1 & Etl). rewrite Hb in Hb1. injection Hb1 as <- <-.
      assert (Eb : ly_bin tl = bn) by (rewrite Etl; reflexivity). assert (E0 : placed tl = []) by (rewrite Etl; reflexivity).
      destruct (proj2 (b_stock _ _ _ I) b q) as (a & Ea & Sa). { rewrite (map_nth_error snd _ _ Hb). reflexivity. }
      rewrite (bins_of_fam _ _ F) in Sa. pose proof (St _ _ _ Hb) as Sb. rewrite map_app, count_app in Sb. cbn [map fst] in Sb. unfold count in Sb at 2. cbn [filter] in Sb. rewrite Nat.eqb_refl in Sb. cbn [length] in Sb.
      destruct a as [|n]; [lia|].
      destruct (one_more p (Template b) tl b q i d n T) as (r & p1 & l' & E & T1 & Ch & Eb1 & Pm1 & L1).
      + exact Et0.
      + rewrite Eb. exact Hb.
      + rewrite Eb, E0. apply (packed_incl M items _ ((i, d) :: ys)); [constructor; [intros []|constructor]|intros x [<-|[]]; left; reflexivity|exact Pb].
      + intros it qi Hi. pose proof (Dm _ _ _ Hi) as D. rewrite flat_map_app, count_app in D. rewrite (count_perm i _ _ (items_of_fam _ _ F)).
        cbn [flat_map map fst snd app] in D. unfold count in D at 2. cbn [filter] in D. rewrite Nat.eqb_refl in D. cbn [length] in D. lia.
      + exact Ea.
      + assert (F1 : Forall2 holds (bp_layouts p1) (ds ++ [(b, [(i, d)])])).
        { rewrite L1. apply Forall2_app; [exact F|]. constructor; [|constructor]. exists bn, q. cbn [fst snd]. split; [exact Hb|]. split; [congruence|]. rewrite E0 in Pm1. exact Pm1. }
        destruct (fill_last ovf b bn q ys [(i, d)] ds p1 Hb T1 F1) as (ops1 & p2 & R1 & C1 & T2 & F2).
        * eapply (packed_perm M); [|exact Pb]. apply Permutation_cons_append.
        * intros j it qj Hj. etransitivity; [|exact (Dm j it qj Hj)]. rewrite flat_last, flat_map_app, !count_app. apply Nat.add_le_mono_l.
          cbn [flat_map snd]. rewrite count_app, map_app. cbn [map fst].
          rewrite (count_perm j (map fst ys ++ [i]) (i :: map fst ys)); [lia|]. symmetry. apply Permutation_cons_append.
        * assert (F2' : Forall2 holds (bp_layouts p2) (ds ++ [(b, (i, d) :: ys)])).
          { apply Forall2_app_inv_r in F2 as (la & lb & Fa & Fb & Ela). rewrite Ela. apply Forall2_app; [exact Fa|].
            inversion Fb as [|l2 y ? ? Hl2 Fc]; subst. inversion Fc; subst. constructor; [|constructor]. eapply holds_perm; [|exact Hl2]. symmetry. apply Permutation_cons_append. }
          destruct (IH (ds ++ [(b, (i, d) :: ys)]) p2 T2 F2' Pk') as (ops2 & p' & R2 & C2 & T' & F').
          { intros j it qj Hj. rewrite <- app_assoc. exact (Dm j it qj Hj). }
          { intros c bc qc Hc. rewrite <- app_assoc. exact (St c bc qc Hc). }
          rewrite <- app_assoc in F'. destruct (ops_app M ovf ops1 ops2 p1 p2 p' R1 C1 R2 C2) as (R3 & C3).
          exists ((PO (Template b) i d, 0) :: ops1 ++ ops2), p'.
          assert (Stp : bstep ovf (p, []) (BPlace (PO (Template b) i d) 0) = Ok (p1, [])) by (cbn [bstep]; rewrite E; reflexivity).
          split; [cbn [place_ops map rfold fst snd]; rewrite Stp; exact R3|]. split.
          { cbn [all_checked]. split; [exact Ch|]. intros k p3 E3. rewrite E in E3. injection E3 as <- <-. exact C3. }
          split; [exact T'|exact F'].
  Qed.
  Lemma all_bchecked : forall ovf ops (p : bp), all_checked p ops -> bchecked ovf (p, []) (place_ops ops).
  Proof.
    intros ovf. induction ops as [|[o ptr] ops IH]; intros p C; [exact Logic.I|]. destruct C as (C1 & C2). cbn [place_ops map bchecked fst snd]. split; [exact C1|].
    cbn [bstep]. destruct (bp_place p o ptr) as [[k p']|]; cbn [rbind]; [|exact Logic.I]. apply IH. exact (C2 k p' eq_refl).
  Qed.
End R.

Section T.
  Variable M : R.
  #[local] Instance NRT : Num R := RNumT Reqb M.
  #[local] Existing Instance RTrig.
  Context {ED : EqD (dtransf R)} {BS : BSearch}.
  Hypothesis BSok : bsearch_ok BS.
  Theorem packings_reached : forall items bins (inst : bpinst R (dtransf R)) ovf fam, bpinst_new items bins = Ok inst ->
    Forall (fun x => sound_item M (fst x)) items -> Forall (fun b => good_bin (fst b)) bins -> fine_bins bins -> Forall (fun b => cfg_cells (bn_cfg (fst b)) <> 0) bins ->
    family_packed items bins fam -> within_demand items fam -> within_stock bins fam ->
    exists ops p, bchecked ovf (bp_new inst, []) ops /\ bp_run ovf inst ops = Ok (p, []) /\ Forall2 (holds bins) (bp_layouts p) fam.
  Proof.
    intros items bins inst ovf fam Hn Hs Gb Fb Nc Pk Dm St. pose proof (inst_ids _ _ _ Hn) as Ids. destruct (inst_lists M _ _ _ Hn) as (Ei & Eb).
    assert (Snd : Forall (fun x => sound_item M (fst x)) (bi_items inst)) by (rewrite Ei; exact Hs).
    assert (T0 : TInv M inst (bp_new inst)).
    { apply (new_T M BSok inst); [split; [eauto|rewrite Eb; exact Gb]|rewrite Eb; exact Fb|rewrite Eb; exact Nc]. }
    destruct (fill_family M BSok inst Ids Snd ovf fam [] (bp_new inst) T0) as (ops & p & R & C & _ & F).
    - constructor.
    - rewrite Ei, Eb. exact Pk.
    - rewrite Ei. exact Dm.
    - rewrite Eb. exact St.
    - exists (place_ops ops), p. rewrite Eb in F. split; [exact (all_bchecked M ovf ops _ C)|]. split; [exact R|exact F].
  Qed.
  Theorem reached_iff : forall items bins (inst : bpinst R (dtransf R)) ovf fam, bpinst_new items bins = Ok inst ->
    Forall (fun x => sound_item M (fst x)) items -> Forall (fun b => good_bin (fst b)) bins -> fine_bins bins -> Forall (fun b => cfg_cells (bn_cfg (fst b)) <> 0) bins ->
    within_demand items fam ->
    ((exists ops p h, bchecked ovf (bp_new inst, []) ops /\ bp_run ovf inst ops = Ok (p, h) /\ Forall2 (holds bins) (bp_layouts p) fam) <->
     family_packed items bins fam /\ within_stock bins fam).
  Proof.
    intros items bins inst ovf fam Hn Hs Gb Fb Nc Dm. split.
    - intros (ops & p & h & C & R & F). pose proof (inst_ids _ _ _ Hn) as Ids. destruct (inst_lists M _ _ _ Hn) as (Ei & Eb).
      assert (Fi : fine_items items) by (eapply Forall_impl; [|exact Hs]; intros x Hx; exact (so_shape _ _ Hx)).
      destruct (bp_history_packs M BSok items bins inst ovf ops p h Hn Gb Fi Fb C R) as (Pk & _). pose proof (run_inv _ _ _ _ _ Ids R) as I. split.
      + pose proof (b_ne _ _ _ I) as Ne. clear -Pk F Ne. unfold family_packed. induction F as [|l x ls fam (b & q & A & B & P) F IH]; [constructor|].
        inversion Pk as [|? ? (_ & Kl) Pk']; subst. inversion Ne as [|? ? Nl Ne']; subst. constructor; [|exact (IH Pk' Ne')]. split.
        * intros E. rewrite E in P. symmetry in P. apply Permutation_nil in P. unfold placed in P. apply map_eq_nil in P. exact (Nl P).
        * exists (ly_bin l), q. split; [exact A|]. eapply (packed_perm M); [exact P|exact Kl].
      + intros b bn q Hb. rewrite <- Eb in Hb, F. rewrite <- (bins_of_fam inst Ids _ _ F). destruct (proj2 (b_stock _ _ _ I) b q) as (a & _ & Sa); [|lia].
        rewrite (map_nth_error snd _ _ Hb). reflexivity.
    - intros (Pk & St). destruct (packings_reached _ _ _ ovf fam Hn Hs Gb Fb Nc Pk Dm St) as (ops & p & A & B & C). eauto 10.
  Qed.
  (** the same for strips, where a demand is not even checked *)
  Lemma fill_strip : forall (inst : spinst R) ovf tol, sids_ok inst -> Forall (fun x => sound_item M (fst x)) (si_items inst) -> forall ys (p : sp R (dtransf R)),
    SInv inst p [] -> HL M (si_items inst) (sp_layout p) -> packed (si_items inst) (ly_bin (sp_layout p)) (ys ++ placed (sp_layout p)) ->
    exists ops p', schecked_run ovf tol (p, []) ops /\ rfold (sstep ovf tol) ops (p, []) = Ok (p', []) /\ ly_bin (sp_layout p') = ly_bin (sp_layout p) /\
      Permutation (placed (sp_layout p')) (ys ++ placed (sp_layout p)) /\ HL M (si_items inst) (sp_layout p').
  Proof.
    intros inst ovf tol Ids Snd. induction ys as [|[i d] ys IH]; intros p I H Pk.
    - exists [], p. split; [exact Logic.I|]. split; [reflexivity|]. split; [reflexivity|]. split; [reflexivity|exact H].
    - destruct (packed_turned M (BPI (si_items inst) 0%R []) _ _ i d Pk (or_introl eq_refl)) as (it & q & Ni & Tn). cbn [bi_items] in Ni.
      destruct (some_tolerated (sp_layout p) it) as (irr & Tl).
      pose proof (proj1 Pk) as Nd. cbn [app] in Nd. inversion Nd as [|? ? N1 N2]; subst.
      assert (Nin : ~ In (i, d) (placed (sp_layout p))) by (intros X; apply N1; apply in_or_app; right; exact X).
      assert (Nd0 : NoDup (placed (sp_layout p))) by (clear -N2; induction ys as [|y ys IH]; [exact N2|]; inversion N2; auto).
      assert (Pl : packed (si_items inst) (ly_bin (sp_layout p)) (placed (sp_layout p))).
      { apply (packed_incl M _ _ _ _ Nd0 (fun x Hx => in_or_app ((i, d) :: ys) _ x (or_intror Hx)) Pk). }
      assert (P1 : packed (si_items inst) (ly_bin (sp_layout p)) ((i, d) :: placed (sp_layout p))).
      { refine (packed_incl M _ _ _ _ _ _ Pk); [constructor; assumption|]. intros x [<-|Hx]; [left; reflexivity|]. right. apply in_or_app. right. exact Hx. }
      assert (Ch : schecked p (PO (Real 0) i d)).
      { exists it, q, irr. cbn [po_layout po_item po_dt]. split; [reflexivity|]. split; [rewrite (s_inst _ _ _ I); exact Ni|]. split; [exact Tl|]. split; [|exact Tn].
        apply (accepted_packs M (si_items inst) (sp_layout p) it q irr i d); try assumption; [exact (Gi M _ Snd)|apply H|apply H]. }
      destruct (splace_ok M BSok inst Ids Snd p i it q d 0 I H Ni Nin) as (r & p1 & E & H1 & I1 & Pm & Eb).
      assert (Px : Permutation ((i, d) :: ys ++ placed (sp_layout p)) (ys ++ placed (sp_layout p1))) by (rewrite Pm; apply Permutation_middle).
      destruct (IH p1 I1 H1) as (ops & p' & C & R & Eb' & Pm' & H').
      + rewrite Eb. eapply (packed_perm M); [exact Px|exact Pk].
      + exists (SPlace (PO (Real 0) i d) 0 :: ops), p'.
        assert (E1 : sp_place p (PO (Real 0) i d) 0 = Ok (r, p1)) by exact E.
        assert (St : sstep ovf tol (p, []) (SPlace (PO (Real 0) i d) 0) = Ok (p1, [])) by (cbn [sstep]; rewrite E1; reflexivity).
        split; [cbn [schecked_run fst]; rewrite St; split; [exact Ch|exact C]|]. split; [cbn [rfold]; rewrite St; exact R|].
        split; [congruence|]. split; [|exact H']. etransitivity; [exact Pm'|]. symmetry. exact Px.
  Qed.
  Theorem strip_reached_iff : forall items hgt (inst : spinst R) ovf tol w c ptr p0 pl, spinst_new items hgt = Ok inst ->
    Forall (fun x => sound_item M (fst x)) items -> cfg_cells c <> 0 -> sp_new inst w c ptr = Ok p0 ->
    ((exists ops p h, schecked_run ovf tol (p0, []) ops /\ rfold (sstep ovf tol) ops (p0, []) = Ok (p, h) /\
        ly_bin (sp_layout p) = ly_bin (sp_layout p0) /\ Permutation (placed (sp_layout p)) pl) <->
     packed items (ly_bin (sp_layout p0)) pl).
  Proof.
    intros items hgt inst ovf tol w c ptr p0 pl Hn Hs Nc E0. pose proof (sinst_ids _ _ _ Hn) as Ids.
    assert (Ei : si_items inst = items). { unfold spinst_new in Hn. destruct (ids_correct _); [|discriminate]. cbn in Hn. injection Hn as <-. reflexivity. }
    split.
    - intros (ops & p & h & C & R & Eb & Pm).
      assert (Fi : fine_items items) by (eapply Forall_impl; [|exact Hs]; intros x Hx; exact (so_shape _ _ Hx)).
      destruct (sp_history_packs M BSok items hgt inst ovf tol w c ptr ops p0 p h Hn Fi E0 C R) as (_ & Pk & _). rewrite Eb in Pk.
      eapply (packed_perm M); [exact Pm|exact Pk].
    - intros Pk. rewrite <- Ei in Hs. pose proof (sp_new_SPInv M BSok _ _ _ _ _ E0) as Q.
      assert (K : HL M (si_items inst) (sp_layout p0) /\ placed (sp_layout p0) = []).
      { pose proof E0 as E1. unfold sp_new in E1. apply rbind_ok in E1 as (b & Eb & E1). injection E1 as <-. split; [|reflexivity]. cbn [sp_layout].
        apply (strip_HL M BSok inst c Nc 0 _ _ b Eb). }
      destruct K as (H & Em). rewrite <- Ei in Pk. destruct (fill_strip inst ovf tol Ids Hs pl p0 (q_inv _ _ _ Q) H) as (ops & p & C & R & Eb & Pm & _).
      + rewrite Em, app_nil_r. exact Pk.
      + rewrite Em, app_nil_r in Pm. exists ops, p, []. auto.
  Qed.
End T.
