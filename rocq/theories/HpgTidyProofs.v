(** Engines whose grid covers the box: every registration reaches all cells it should. *)
From Coq Require Import List Bool Arith Lia Permutation Sorted.
From Verif Require Import Base Num GeoModel HazardModel QTModel TransfModel HpgModel CdeModel BaseProofs CdeSpec CdeOpsProofs CdeHistProofs GeoSpec ParityProofs
  GeoPrimProofs PlaceSpec HpgSpec HpgGridProofs HpgFillProofs HpgCellProofs HpgRegProofs HpgHistProofs HpgGenProofs HpgThmProofs HpgFullProofs.
From Coq Require Import Reals Lra.
From Verif Require Import GeoModel HazardModel QTModel TransfModel HpgModel CdeModel CdeSpec GeoSpec PlaceSpec HpgSpec.
Import ListNotations.
Local Open Scope R_scope.

Section Tidy.
  Context {D : Type} {ED : EqD D} {BS : BSearch}.
  Hypothesis BSok : bsearch_ok BS.
  Variable M : R.
  #[local] Instance NMy : Num R := RNumT Reqb M.
  Local Notation cell := (cell R D).
  Local Notation hazard := (hazard R D).
  Local Notation fact := (CdeSpec.fact R D).
  Local Notation grid := (grid R cell).

  (** on every grid shaped like [g0] with Lipschitz values, registering a pole of the kind
      [okp] reaches all cells it should *)
  Definition reaches (rad : R) (okp : rcircle -> Prop) (g0 : grid) : Prop := forall (g : grid) (h : hazard) k b, same_grid g0 g -> grid_wf g ->
    length (bf_state b) = (n_rows g * n_cols g)%nat -> lip g -> vpos g -> ent_position (h_ent h) = Interior -> 0 <= crad k -> okp k ->
    complete_pole M rad h (g, b) k.

  Lemma poles_complete : forall rad okp g0 (h : hazard), 0 <= rad -> grid_wf g0 -> reaches rad okp g0 -> ent_position (h_ent h) = Interior ->
    forall ks (g : grid) b g' b', same_grid g0 g -> length (bf_state b) = (n_rows g * n_cols g)%nat -> lip g -> vpos g ->
    (forall k, In k ks -> 0 <= crad k /\ okp k) ->
    rfold (hpg_register_pole rad h) ks (g, b) = Ok (g', b') ->
    forall i c c', cell_at g i = Some c -> cell_at g' i = Some c' -> fst (c_uni c') <= fst (c_uni c) /\ c_cen c' = c_cen c /\
      forall k, In k ks -> fst (c_uni c') <= gap k (c_cen c').
  Proof.
    intros rad okp g0 h R0 W0 Cm P. induction ks as [|k ks IH]; intros g b g' b' Sg0 Lb Li Po Hk E i c c' Ec Ec'; cbn [rfold] in E.
    - injection E as <- <-. rewrite Ec in Ec'. injection Ec' as <-. split; [lra|]. split; [reflexivity|intros k []].
    - apply rbind_ok in E as ([g1 b1] & E1 & E).
      destruct (Hk k (or_introl eq_refl)) as (K0 & Kp). pose proof (same_grid_wf _ _ Sg0 W0) as W.
      assert (Cp := Cm g h k b Sg0 W Lb Li Po P K0 Kp _ E1). cbn [fst] in Cp.
      destruct (register_pole_grid BSok M rad h k g b W) as (g2 & b2 & order & rows & cols & E2 & F1 & F2 & F3 & F4 & _ & _ & _ & O1 & O2); auto.
      assert (K : Ok (g2, b2) = Ok (g1, b1)) by (rewrite <- E1, <- E2; reflexivity). injection K as -> ->.
      (* the new values *)
      assert (Val : forall j cj, cell_at g j = Some cj -> exists cj', cell_at g1 j = Some cj' /\ same_frame cj cj' /\ fst (c_uni cj') = Rmin (fst (c_uni cj)) (gap k (c_cen cj))).
      { intros j cj Ej. destruct (in_dec Nat.eq_dec j order) as [Hj|Hj].
        - exists (lower cj (gap k (c_cen cj)) (h_ent h)). rewrite (O1 j Hj), Ej. split; [reflexivity|]. split; [apply lower_frame|apply lower_val].
        - exists cj. rewrite (O2 j Hj). split; [exact Ej|]. split; [apply same_refl|]. assert (Q : cell_at g1 j = Some cj) by (rewrite (O2 j Hj); exact Ej).
          pose proof (Cp j cj Q) as Q'. cbn beta in Q'. rewrite Rmin_left by exact Q'. reflexivity. }
      assert (Back : forall j cj', cell_at g1 j = Some cj' -> exists cj, cell_at g j = Some cj).
      { intros j cj' Ej. destruct (in_dec Nat.eq_dec j order) as [Hj|Hj]; [rewrite (O1 j Hj) in Ej|rewrite (O2 j Hj) in Ej; eauto].
        destruct (cell_at g j) as [cj|]; [eauto|discriminate]. }
      assert (Val' : forall j cj', cell_at g1 j = Some cj' -> exists cj, cell_at g j = Some cj /\ same_frame cj cj' /\ fst (c_uni cj') = Rmin (fst (c_uni cj)) (gap k (c_cen cj))).
      { intros j cj' Ej. destruct (Back j cj' Ej) as (cj & Ej0). destruct (Val j cj Ej0) as (x & Ex & Q). rewrite Ej in Ex. injection Ex as <-. eauto. }
      assert (Sg : same_grid g g1).
      { split; [exact F1|]. split; [exact F2|]. split; [exact F3|]. intros j. destruct (cell_at g j) as [cj|] eqn:Ej.
        - destruct (Val j cj Ej) as (cj' & Ej' & Q & _). rewrite Ej'. exact Q.
        - destruct (cell_at g1 j) as [cj'|] eqn:Ej'; [|exact I]. destruct (Back j cj' Ej') as (x & Ex). congruence. }
      destruct (Val i c Ec) as (ci1 & Ei1 & (Fr1 & _) & V1).
      destruct (IH g1 b1 g' b') with (i := i) (c := ci1) (c' := c') as (D1 & D2 & D3); auto.
      { eapply same_grid_trans; eassumption. } { unfold n_rows, n_cols in *. rewrite F1, F2. exact F4. }
      { intros j j' cj cj' Ej Ej'. destruct (Val' j cj Ej) as (a & Ea & (Fa & _) & Va). destruct (Val' j' cj' Ej') as (a' & Ea' & (Fa' & _) & Va').
        rewrite Va, Va', Fa, Fa'. pose proof (Li j j' a a' Ea Ea') as L1. pose proof (gap_lip k (c_cen a') (c_cen a)) as L2. rewrite edist_sym in L2.
        unfold Rmin. destruct (Rle_dec (fst (c_uni a)) (gap k (c_cen a))), (Rle_dec (fst (c_uni a')) (gap k (c_cen a'))); lra. }
      { intros j cj Ej. destruct (Val' j cj Ej) as (a & Ea & _ & Va). rewrite Va. apply Rmin_glb; [apply (Po j a Ea)|apply gap_nonneg]. }
      { intros k' Hk'. apply Hk. right. exact Hk'. }
      split; [rewrite V1 in D1; pose proof (Rmin_l (fst (c_uni c)) (gap k (c_cen c))); lra|]. split; [congruence|].
      intros k' [<-|Hk']; [|apply D3; exact Hk']. rewrite D2, Fr1. rewrite V1 in D1. pose proof (Rmin_r (fst (c_uni c)) (gap k (c_cen c))). lra.
  Qed.

  Lemma register_settled : forall rad okp g0 (g g' : hpg R D) (h : hazard), 0 <= rad -> grid_wf g0 -> reaches rad okp g0 -> same_grid g0 (hg_grid g) ->
    hg_rad g = rad -> lip (hg_grid g) -> vpos (hg_grid g) -> grid_hazard h -> (forall k, In k (poles_of (a_obj (h_shape h))) -> okp k) ->
    hpg_register g h = Ok g' -> settled (a_obj (h_shape h)) g'.
  Proof.
    intros rad okp g0 g g' h R0 W0 Cm Sg0 Hr Li Po (P & _ & Ac & Pr & Bx & By) Hk E. pose proof (same_grid_wf _ _ Sg0 W0) as W.
    destruct (hpg_register_grid BSok M g h W) as (gr & E' & Sg & _).
    { rewrite Hr. exact R0. } { exact P. } { exact Pr. } { split; assumption. }
    assert (K : Ok (hset g gr) = Ok g') by (rewrite <- E, <- E'; reflexivity). injection K as <-.
    destruct Pr as (s & Es & Ne & Rk & _). unfold poles_of in *. rewrite Es in Hk. unfold hpg_register in E'. rewrite Es in E'. cbn [expect rbind] in E'.
    destruct (bf_new_ok BSok M (hg_grid g) _ W By Bx) as (b & Eb & Lb). rewrite Eb in E'. cbn [rbind] in E'. rewrite Hr in E'.
    apply rbind_ok in E' as ([g1 b1] & E1 & E'). injection E' as Eg. apply every_all. unfold hset. cbn [hg_grid]. intros i c' Ec' k Hk'. unfold poles_of in Hk'. rewrite Es in Hk'.
    destruct Sg as (_ & _ & _ & Sg). specialize (Sg i). rewrite Ec' in Sg. destruct (cell_at (hg_grid g) i) as [c|] eqn:Ec; [|contradiction]. subst g1.
    destruct (poles_complete rad okp g0 h R0 W0 Cm P (s_poles s) (hg_grid g) b gr b1 Sg0 Lb Li Po) with (i := i) (c := c) (c' := c') as (_ & _ & Q); auto.
  Qed.

  (** exact values are Lipschitz *)
  Definition static_lip (g : grid) : Prop := forall i j c c', cell_at g i = Some c -> cell_at g j = Some c' ->
    0 <= fst (c_stat c) /\ fst (c_stat c) <= fst (c_stat c') + edist (c_cen c) (c_cen c').
  Lemma nearest_lip : forall (sts : list hazard) P a b d d', nearest M sts P a d -> nearest M sts P b d' -> d <= d' + edist a b.
  Proof.
    intros sts P a b d d' (A1 & A2 & A3) (B1 & B2 & B3). pose proof (edist_nonneg a b). destruct B2 as [ -> |(h & Hh & Ph & (q & Bq & Dq) & _)]; [lra|].
    pose proof (A3 h q Hh Ph Bq). pose proof (edist_tri a b q). lra.
  Qed.
  Lemma nearest_pos : forall (sts : list hazard) P a d, 0 <= M -> nearest M sts P a d -> 0 <= d.
  Proof. intros sts P a d HM (_ & [ -> |(h & _ & _ & (q & _ & <-) & _)] & _); [exact HM|apply edist_nonneg]. Qed.
  Lemma exact_lip : forall B (g : grid), static_lip g -> all_cells (exact_cell B) g -> lip g /\ vpos g.
  Proof.
    intros B g Sl Ex. split.
    - intros i j c c' Ec Ec'. destruct (Ex i c Ec) as (_ & L1 & L2). destruct (Ex j c' Ec') as ([O|[[]|(f & k & Hf & _ & Hk & Ev)]] & _).
      + rewrite O. destruct (Sl i j c c' Ec Ec') as (_ & Q). lra.
      + rewrite Ev. specialize (L2 f k Hf Hk). pose proof (gap_lip k (c_cen c') (c_cen c)). rewrite edist_sym in H. lra.
    - intros i c Ec. destruct (Ex i c Ec) as ([O|[[]|(f & k & _ & _ & _ & Ev)]] & _); [rewrite O; apply (Sl i i c c Ec Ec)|rewrite Ev; apply gap_nonneg].
  Qed.
  Lemma static_lip_same : forall g g', same_grid g g' -> static_lip g -> static_lip g'.
  Proof.
    intros g g' (_ & _ & _ & S) H i j c c' Ec Ec'. pose proof (S i) as Si. pose proof (S j) as Sj. rewrite Ec in Si. rewrite Ec' in Sj.
    destruct (cell_at g i) as [a|] eqn:Ea; [|contradiction]. destruct (cell_at g j) as [a'|] eqn:Ea'; [|contradiction].
    destruct Si as (F1 & F2 & _). destruct Sj as (F3 & F4 & _). rewrite F1, F2, F3, F4. eapply H; eassumption.
  Qed.

  Section Step.
    Variable lvl : nat.
    Variable bb : rect R.
    Variable shp : entity D -> poly R * bool.
    Variable st : list hazard.
    Variable g0 : grid.
    Variable rad : R.
    Variable okp : rcircle -> Prop.
    Hypothesis R0 : 0 <= rad.
    Hypothesis W0 : grid_wf g0.
    Hypothesis Cm : reaches rad okp g0.
    Hypothesis Sl0 : static_lip g0.
    Definition okp_op (o : op R D) : Prop := match o with OReg h => forall k, In k (poles_of (a_obj (h_shape h))) -> okp k | _ => True end.
    Local Notation related := (@related R NMy D lvl bb shp st).
    Local Notation cok := (cok bb shp g0 rad).

    (** the values are exact for the registered hazards and those whose removal is pending *)
    Definition tracked (c : cde R D) : Prop := exists B g, cd_hpg c = Some g /\ all_cells (exact_cell B) (hg_grid g) /\
      incl (map fact_of (cd_dyn c)) B /\ forall f, In f B -> In f (map fact_of (cd_dyn c)) \/ In (f_ent f) (hg_unc g).

    Lemma clean_tracked : forall c sn, cok c sn -> lowc c sn -> dirtyc c = false -> tracked c.
    Proof.
      intros c sn ((g & Eg & G) & _) (L & _) Di. exists (map fact_of (cd_dyn c)), g. split; [exact Eg|].
      assert (Eu : hg_unc g = []) by (unfold dirtyc in Di; rewrite Eg in Di; unfold hpg_dirty in Di; destruct (hg_unc g); [reflexivity|discriminate]).
      split; [|split; [apply incl_refl|auto]]. intros i ce Hc. split; [rewrite <- Eu; apply (go_own _ _ _ _ _ _ G i ce Hc)|apply (L g Eg i ce Hc)].
    Qed.

    Lemma step_full : forall c sn a o, related c sn a -> op_ok shp st a o -> grid_op o -> okp_op o ->
      (match o with ODereg _ true => dirtyc c = false | _ => True end) ->
      cok c sn -> lowc c sn -> tracked c ->
      exists c' sn', step (c, sn) o = Ok (c', sn') /\ settled_op o c' /\ cok c' sn' /\ lowc c' sn' /\ tracked c' /\ dirtyc c' = next_dirty o (dirtyc c).
    Proof.
      intros c sn a o Rel V Go Ce Td C L T.
      destruct (step_grid BSok M lvl bb shp st g0 rad c sn a o W0 R0 Rel V Go C) as (c' & sn' & E & C' & Di & Lo).
      assert (E0 : step (c, sn) o = Ok (c', sn')) by exact E. clear E. rename E0 into E.
      exists c', sn'. split; [exact E|].
      assert (Se : settled_op o c' /\ (match o with OReg _ | ODereg _ false => tracked c' | _ => True end)).
      2: { destruct Se as (Se & Tr). split; [exact Se|]. split; [exact C'|]. pose proof (Lo L Se) as L'. split; [exact L'|]. split; [|exact Di].
           destruct o as [h|e [|]| | | |k]; try exact Tr; eapply clean_tracked; try eassumption; rewrite Di; unfold next_dirty; cbn [pending]; auto. }
      destruct o as [h|e [|]| | | |k]; try (split; exact I).
      - destruct Rel as [I Es P Coh Sn So]. destruct a as [A sv]. cbn [fst snd op_ok] in *.
        destruct V as (Wh & Dh & N1 & N2). pose proof (perm_ents _ _ P) as Pe. apply Forall_app in Coh as (Cd & Cu).
        destruct C as ((g & Eg & G) & Cs & Gd & Gu & Gs). destruct T as (B & g' & Eg' & Ex & Bi & Bo). rewrite Eg in Eg'. injection Eg' as <-.
        cbn [step] in E.
        destruct (cde_register_ok BSok lvl bb c h I) as (qt & unc & h' & E1 & R' & Hh').
        { exact Wh. }
        { rewrite Es. unfold ents. rewrite map_app. intros X. apply in_app_or in X as [X|X]; [contradiction|].
          apply N2. eapply Permutation_in; [exact Pe|exact X]. }
        assert (Hh : grid_hazard h' /\ fact_of h' = fact_of h).
        { destruct Hh' as [(-> & -> & _)|(Ee & Pm)]; [auto|].
          assert (Cu' := Permutation_Forall Pm Cu). assert (Gu' := Permutation_Forall Pm Gu). inversion Cu'; inversion Gu'; subst.
          split; [assumption|]. rewrite (denotes_fact shp h'), (denotes_fact shp h), Ee by assumption. reflexivity. }
        destruct Hh as (Gh' & Ef). assert (Eo : a_obj (h_shape h') = a_obj (h_shape h)) by (unfold fact_of in Ef; congruence).
        rewrite E1, Eg in E. cbn [opt_hpg] in E. apply rbind_ok in E as (c1 & E & Ec1). apply rbind_ok in E as (og & E2 & E). apply rbind_ok in E2 as (g1 & E2 & Eog).
        injection Eog as <-. injection E as <-. injection Ec1 as <- <-.
        destruct G as [G1 G2 G3 G4 G5].
        assert (Sl : static_lip (hg_grid g)) by (eapply static_lip_same; eassumption).
        destruct (exact_lip B _ Sl Ex) as (Li & Po).
        assert (St : settled (a_obj (h_shape h')) g1).
        { eapply (register_settled rad okp g0 g g1 h'); try eassumption. intros k Hk. rewrite Eo in Hk. apply Ce. exact Hk. }
        split; [cbn [settled_op cd_hpg]; intros g2 [= <-]; rewrite <- Eo; exact St|].
        destruct (hpg_register_grid BSok M g h') as (gr & E3 & Sg & Lw).
        { eapply same_grid_wf; eassumption. } { rewrite G1. exact R0. } { apply Gh'. } { apply Gh'. } { split; apply Gh'. }
        assert (K : Ok (hset g gr) = Ok g1) by (rewrite <- E2, <- E3; reflexivity). injection K as <-.
        exists (fact_of h' :: B), (hset g gr). split; [reflexivity|]. split; [|split].
        + intros i ce' Hc'. cbn [hset hg_grid] in Hc'. destruct Sg as (_ & _ & _ & Sg). specialize (Sg i). rewrite Hc' in Sg.
          destruct (cell_at (hg_grid g) i) as [ce|] eqn:Hc; [|contradiction]. destruct (Lw i ce ce' Hc Hc') as (Le & Ow). destruct (Ex i ce Hc) as (O1 & L1 & L2).
          destruct Sg as (F1 & F2 & _). split.
          * destruct Ow as [ -> |(k & Hk & -> & _)]; [apply (owned_mono [] [] B); [apply incl_refl|apply incl_tl, incl_refl|exact O1]|].
            right. right. exists (fact_of h'), k. split; [left; reflexivity|]. auto.
          * split; [rewrite F2; lra|]. intros f k [<-|Hf] Hk.
            -- apply every_all in St. apply (St i ce' Hc'). exact Hk.
            -- rewrite F1. specialize (L2 f k Hf Hk). lra.
        + cbn [cd_dyn]. rewrite map_app. intros x Hx. apply in_app_or in Hx as [Hx|[<-|[]]]; [right; apply Bi; exact Hx|left; reflexivity].
        + intros f Hf. cbn [cd_dyn hset hg_unc]. rewrite map_app. destruct Hf as [<-|Hf]; [left; apply in_or_app; right; left; reflexivity|].
          destruct (Bo f Hf) as [Q|Q]; [left; apply in_or_app; left; exact Q|right; exact Q].
      - split; [exact I|]. destruct Rel as [I Es P Coh Sn So]. destruct a as [A sv]. cbn [fst snd op_ok] in *. pose proof (perm_ents _ _ P) as Pe.
        destruct T as (B & g & Eg & Ex & Bi & Bo). cbn [step] in E.
        assert (He : In e (ents (cd_dyn c))) by (eapply Permutation_in; [symmetry; exact Pe|exact V]).
        destruct (cde_deregister_ok BSok lvl bb c e false I He) as (h & dyn & qt & Pm & Eh & E1 & R').
        rewrite E1, Eg in E. cbn [opt_hpg hpg_deregister rbind] in E. injection E as <- <-.
        assert (Pm' := Permutation_map fact_of Pm). cbn [map] in Pm'.
        exists B. eexists. split; [reflexivity|]. cbn [hg_grid hg_unc cd_dyn]. split; [exact Ex|]. split.
        + intros x Hx. apply Bi. eapply Permutation_in; [symmetry; exact Pm'|right; exact Hx].
        + intros f Hf. destruct (Bo f Hf) as [Q|Q]; [|right; apply in_or_app; left; exact Q].
          eapply Permutation_in in Q; [|exact Pm']. destruct Q as [<-|Q]; [right; apply in_or_app; right; left; symmetry; exact Eh|left; exact Q].
    Qed.

    Lemma run_full : forall ops c sn a, related c sn a -> ops_ok shp st a ops -> Forall grid_op ops -> Forall okp_op ops -> tidy ops (dirtyc c) ->
      cok c sn -> lowc c sn -> tracked c -> settles (c, sn) ops.
    Proof.
      induction ops as [|o ops IH]; intros c sn a Rel V Go Ce Td C L T; cbn [settles ops_ok] in *; [exact I|].
      destruct V as (V1 & V2). inversion Go as [|? ? Go1 Go2]; subst. inversion Ce as [|? ? Ce1 Ce2]; subst.
      destruct (step_full c sn a o Rel V1 Go1 Ce1) as (c' & sn' & E & Se & C' & L' & T' & Di); auto.
      { destruct o as [h|e [|]| | | |k]; auto. apply Td. }
      intros [c1 sn1] E'. assert (K : Ok (c', sn') = Ok (c1, sn1)) by (transitivity (step (c, sn) o); [symmetry; exact E|exact E']). injection K as <- <-. split.
      - destruct o; auto.
      - apply (IH c' sn' (astep a o)); auto.
        + eapply (step_related BSok); eassumption.
        + rewrite Di. unfold next_dirty. destruct o as [h|e [|]| | | |k]; cbn [pending tidy] in *; auto. apply Td.
    Qed.
  End Step.

  (** *** a new grid that covers the box is regular *)
  Lemma covered_regular : forall bb (sts : list hazard) dim (g : hpg R D), proper bb -> fresh M bb sts dim g -> covered bb (hg_grid g) ->
    exists nx ny, regular (x_min bb) (y_min bb) dim nx ny (hg_grid g) /\ length (g_cells (hg_grid g)) = (ny * nx)%nat /\
      x_max bb <= x_min bb + INR nx * dim /\ y_max bb <= y_min bb + INR ny * dim.
  Proof.
    intros bb sts dim g [Px Py] F Cv. pose proof (fr_dim _ _ _ _ _ F) as Hd.
    set (w := r_width bb / dim). set (h := r_height bb / dim).
    assert (Ew : w * dim = x_max bb - x_min bb) by (unfold w, r_width, Rdiv; cbn [fsub NMg NMy RNumT]; rewrite Rmult_assoc, Rinv_l by lra; lra).
    assert (Eh : h * dim = y_max bb - y_min bb) by (unfold h, r_height, Rdiv; cbn [fsub NMg NMy RNumT]; rewrite Rmult_assoc, Rinv_l by lra; lra).
    set (nx := Rceil_nat w). set (ny := Rceil_nat h).
    pose proof (fr_wf _ _ _ _ _ F) as [Sr Sc R0 C0 Ln].
    set (gr := hg_grid g) in *.
    (* every square is there *)
    assert (Sq : forall i j, (i < nx)%nat -> (j < ny)%nat -> exists c, In (Some c) (g_cells gr) /\ c_bbox' c = square bb dim i j).
    { intros i j Hi Hj. apply ceil_nat in Hi, Hj.
      assert (Ix : exists x, x_min bb <= x <= x_max bb /\ x_min bb + dim * INR i < x < x_min bb + dim * INR i + dim).
      { exists (x_min bb + dim * (INR i + Rmin 1 (w - INR i) / 2)). pose proof (pos_INR i). unfold Rmin. destruct (Rle_dec 1 (w - INR i)) as [L|L]; split; split; nra. }
      assert (Iy : exists y, y_min bb <= y <= y_max bb /\ y_min bb + dim * INR j < y < y_min bb + dim * INR j + dim).
      { exists (y_min bb + dim * (INR j + Rmin 1 (h - INR j) / 2)). pose proof (pos_INR j). unfold Rmin. destruct (Rle_dec 1 (h - INR j)) as [L|L]; split; split; nra. }
      destruct Ix as (x & Bx & Ix). destruct Iy as (y & By & Iy).
      destruct (Cv (Pt x y)) as (c & Hc & (X & Y)); [split; assumption|]. exists c. split; [exact Hc|].
      assert (Hc' : exists n, cell_at gr n = Some c) by (apply In_nth_error in Hc as (n & En); exists n; unfold cell_at; rewrite En; reflexivity).
      destruct Hc' as (n & En). destruct (fr_cells _ _ _ _ _ F n c En) as (_ & _ & _ & i' & j' & Eb & _). rewrite Eb in X, Y |- *.
      unfold square in X, Y. cbn [x_min x_max y_min y_max px py] in X, Y.
      assert (Un : forall a u v z, a + dim * INR u < z < a + dim * INR u + dim -> a + dim * INR v <= z <= a + dim * INR v + dim -> u = v).
      { intros a u v z A B. destruct (Nat.lt_trichotomy u v) as [L|[L|L]]; [|exact L|]; exfalso.
        - apply Nat.le_succ_l, le_INR in L. rewrite S_INR in L. nra.
        - apply Nat.le_succ_l, le_INR in L. rewrite S_INR in L. nra. }
      rewrite (Un _ _ _ _ Ix X), (Un _ _ _ _ Iy Y). reflexivity. }
    assert (Nx : (0 < nx)%nat) by (apply ceil_nat; cbn; unfold w, Rdiv, r_width; cbn [fsub NMg NMy RNumT]; apply Rmult_lt_0_compat; [lra|apply Rinv_0_lt_compat; exact Hd]).
    assert (Ny : (0 < ny)%nat) by (apply ceil_nat; cbn; unfold h, Rdiv, r_height; cbn [fsub NMg NMy RNumT]; apply Rmult_lt_0_compat; [lra|apply Rinv_0_lt_compat; exact Hd]).
    (* a cell at an index *)
    assert (Ix : forall n c, cell_at gr n = Some c -> exists r cc x y, n = (r * n_cols gr + cc)%nat /\ nth_error (g_rows gr) r = Some y /\ nth_error (g_cols gr) cc = Some x /\ c_cen c = Pt x y).
    { intros n c En. assert (Ln' : (n < n_rows gr * n_cols gr)%nat).
      { rewrite <- Ln. apply nth_error_Some. unfold cell_at in En. intros Z. rewrite Z in En. discriminate. }
      assert (Cp : (0 < n_cols gr)%nat) by (unfold n_cols; destruct (g_cols gr); [congruence|cbn; lia]).
      assert (Dn := Nat.div_mod n (n_cols gr) ltac:(lia)). set (r := Nat.div n (n_cols gr)) in *. set (cc := Nat.modulo n (n_cols gr)) in *.
      assert (Hcc : (cc < n_cols gr)%nat) by (apply Nat.mod_upper_bound; lia). assert (Hr : (r < n_rows gr)%nat) by (apply Nat.div_lt_upper_bound; lia).
      destruct (nth_error (g_rows gr) r) as [y|] eqn:Ey; [|apply nth_error_None in Ey; unfold n_rows in Hr; lia].
      destruct (nth_error (g_cols gr) cc) as [x|] eqn:Exx; [|apply nth_error_None in Exx; unfold n_cols in Hcc; lia].
      exists r, cc, x, y. assert (En' : n = (r * n_cols gr + cc)%nat) by lia. split; [exact En'|]. split; [exact Ey|]. split; [exact Exx|].
      rewrite En' in En. apply (fr_at _ _ _ _ _ F r cc y x Ey Exx c En). }
    assert (Cen : forall n c, cell_at gr n = Some c -> exists i j, (i < nx)%nat /\ (j < ny)%nat /\ c_cen c = Pt (mid (x_min bb) dim i) (mid (y_min bb) dim j)).
    { intros n c En. destruct (fr_cells _ _ _ _ _ F n c En) as (Sc' & _ & _ & i & j & Eb & Hi & Hj). exists i, j.
      split; [apply ceil_nat; exact Hi|]. split; [apply ceil_nat; exact Hj|]. rewrite (sc_cen _ _ _ Sc'), Eb. unfold square. cbn [x_min x_max y_min y_max].
      unfold mid. f_equal; lra. }
    assert (CenS : forall i j n c, cell_at gr n = Some c -> c_bbox' c = square bb dim i j -> c_cen c = Pt (mid (x_min bb) dim i) (mid (y_min bb) dim j)).
    { intros i j n c En Eb. destruct (fr_cells _ _ _ _ _ F n c En) as (Sc' & _). rewrite (sc_cen _ _ _ Sc'), Eb. unfold square. cbn [x_min x_max y_min y_max].
      unfold mid. f_equal; lra. }
    assert (At : forall i j, (i < nx)%nat -> (j < ny)%nat -> exists n c, cell_at gr n = Some c /\ c_cen c = Pt (mid (x_min bb) dim i) (mid (y_min bb) dim j)).
    { intros i j Hi Hj. destruct (Sq i j Hi Hj) as (c & Hc & Eb). apply In_nth_error in Hc as (n & En).
      assert (En' : cell_at gr n = Some c) by (unfold cell_at; rewrite En; reflexivity). exists n, c. split; [exact En'|eapply CenS; eassumption]. }
    (* rows and columns *)
    assert (Er : g_rows gr = map (mid (y_min bb) dim) (seq 0 ny)).
    { apply ssorted_ext; [exact Sr|apply mids_sorted; exact Hd|]. intros y. rewrite in_map_iff. split.
      - intros Hy. destruct (fr_rows _ _ _ _ _ F y Hy) as (j & Lj & ->). exists j. split; [reflexivity|]. apply in_seq. apply ceil_nat in Lj. assert (L : (j < ny)%nat) by exact Lj. lia.
      - intros (j & <- & Hj). apply in_seq in Hj. destruct (At 0%nat j Nx ltac:(lia)) as (n & c & En & Ec). destruct (Ix n c En) as (r & cc & x & y & _ & Ey & _ & Ec').
        rewrite Ec in Ec'. injection Ec' as _ ->. eapply nth_error_In. exact Ey. }
    assert (Ecl : g_cols gr = map (mid (x_min bb) dim) (seq 0 nx)).
    { apply ssorted_ext; [exact Sc|apply mids_sorted; exact Hd|]. intros x. rewrite in_map_iff. split.
      - intros Hx. destruct (fr_cols _ _ _ _ _ F x Hx) as (j & Lj & ->). exists j. split; [reflexivity|]. apply in_seq. apply ceil_nat in Lj. assert (L : (j < nx)%nat) by exact Lj. lia.
      - intros (i & <- & Hi). apply in_seq in Hi. destruct (At i 0%nat ltac:(lia) Ny) as (n & c & En & Ec). destruct (Ix n c En) as (r & cc & x & y & _ & _ & Exx & Ec').
        rewrite Ec in Ec'. injection Ec' as -> _. eapply nth_error_In. exact Exx. }
    assert (Nr : n_rows gr = ny) by (unfold n_rows; rewrite Er, map_length, seq_length; reflexivity).
    assert (Nc : n_cols gr = nx) by (unfold n_cols; rewrite Ecl, map_length, seq_length; reflexivity).
    exists nx, ny. split; [|split; [rewrite Ln, Nr, Nc; reflexivity|]].
    - split; auto. intros r c Hr Hc. destruct (At c r Hc Hr) as (n & ce & En & Ec).
      destruct (Ix n ce En) as (r' & c' & x & y & En' & Ey & Exx & Ec'). rewrite Ec in Ec'. injection Ec' as Qx Qy.
      assert (r' = r).
      { assert (L : (r' < ny)%nat) by (rewrite <- Nr; unfold n_rows; apply nth_error_Some; congruence).
        rewrite Er, mids_nth in Ey by exact L. injection Ey as Ey. destruct (Nat.lt_trichotomy r' r) as [Q|[Q|Q]]; [|exact Q|]; apply (mid_lt (y_min bb) dim) in Q; lra. }
      assert (c' = c).
      { assert (L : (c' < nx)%nat) by (rewrite <- Nc; unfold n_cols; apply nth_error_Some; congruence).
        rewrite Ecl, mids_nth in Exx by exact L. injection Exx as Exx. destruct (Nat.lt_trichotomy c' c) as [Q|[Q|Q]]; [|exact Q|]; apply (mid_lt (x_min bb) dim) in Q; lra. }
      subst r' c'. exists ce. rewrite Nc in En'. rewrite <- En'. split; [exact En|]. split; [exact Ec|]. apply (fr_cells _ _ _ _ _ F n ce En).
    - assert (Up : forall v, v <= INR (Rceil_nat v)).
      { intros v. destruct (Rlt_le_dec (INR (Rceil_nat v)) v) as [L|L]; [|exact L]. apply ceil_nat in L. lia. }
      pose proof (Up w) as Uw. pose proof (Up h) as Uh. fold nx in Uw. fold ny in Uh. split; nra.
  Qed.

  Lemma regular_reaches : forall x0 y0 dim nx ny g0, regular x0 y0 dim nx ny g0 -> length (g_cells g0) = (ny * nx)%nat ->
    reaches (half_diag dim) (fun k => x0 <= px (ccen k) <= x0 + INR nx * dim /\ y0 <= py (ccen k) <= y0 + INR ny * dim) g0.
  Proof.
    intros x0 y0 dim nx ny g0 Rg Lg g h k b Sg W Lb Li Po P K0 (Kx & Ky).
    assert (Rg' := regular_same _ _ _ _ _ _ _ Sg Rg). assert (Lg' : length (g_cells g) = (ny * nx)%nat) by (destruct Sg as (_ & _ & Q & _); congruence).
    pose proof (gw_len _ W) as Lw. apply (pole_complete BSok M x0 y0 dim nx ny); auto. congruence.
  Qed.

  (** C32 and C30 where registration reaches all cells *)
  Lemma reaches_settles : forall bb (sts : list hazard) depth n ops c0 (okp : rcircle -> Prop), 0 <= M -> n <> 0%nat -> proper bb -> sound_statics sts -> valid sts ops -> Forall grid_op ops ->
    (forall h k, In (OReg h) ops -> In k (poles_of (a_obj (h_shape h))) -> okp k) -> tidy ops false -> cde_new bb sts depth n = Ok c0 ->
    (forall g dim, cd_hpg c0 = Some g -> fresh M bb sts dim g -> reaches (half_diag dim) okp (hg_grid g)) -> settles (c0, []) ops.
  Proof.
    intros bb sts depth n ops c0 okp HM Nn Pb So (Sok & shp & V) Go Ce Td E0 Cv.
    destruct (cde_new_ok BSok depth bb sts n (proj1 Sok) (proj2 Sok)) as (qt & E' & R').
    pose proof (new_related BSok depth bb shp sts n c0 Sok E0) as Rel.
    rewrite E' in E0. apply rbind_ok in E0 as (og & Eg & E0). injection E0 as <-.
    destruct n as [|n]; [congruence|]. apply rbind_ok in Eg as (g0 & Eg & Eo). injection Eo as <-.
    destruct (hpg_new_ok BSok M bb sts (S n) g0 Pb So Eg) as (dim & F). specialize (Cv g0 dim eq_refl F).
    assert (Dirt : dirtyc (Cde qt sts [] (Some g0) bb []) = false) by (unfold dirtyc; cbn [cd_hpg]; apply dirty_nil, F).
    assert (C0 : cok bb shp (hg_grid g0) (half_diag dim) (Cde qt sts [] (Some g0) bb []) []).
    { split; [|repeat split; constructor]. exists g0. split; [reflexivity|]. split; [apply F|apply F|apply same_grid_refl| |].
      - intros i c Hc. left. apply (fr_cells _ _ _ _ _ F i c Hc).
      - intros i c Hc. left. apply (fr_cells _ _ _ _ _ F i c Hc). }
    assert (L0 : lowc (Cde qt sts [] (Some g0) bb []) []).
    { split; [|constructor]. intros g [= <-]. cbn [cd_dyn map]. intros i c1 Hc1.
      destruct (fr_cells _ _ _ _ _ F i c1 Hc1) as (_ & Eu & _). split; [rewrite Eu; lra|]. intros f k []. }
    apply (run_full depth bb shp sts (hg_grid g0) (half_diag dim) okp) with (a := ([], [])); auto.
    - apply sqrt_pos.
    - apply F.
    - intros i j c c' Ec Ec'. destruct (fr_cells _ _ _ _ _ F i c Ec) as (S1 & _). destruct (fr_cells _ _ _ _ _ F j c' Ec') as (S2 & _).
      pose proof (sc_uni _ _ _ S1) as U1. pose proof (sc_uni _ _ _ S2) as U2. split; [eapply nearest_pos; eassumption|eapply nearest_lip; eassumption].
    - apply Forall_forall. intros o Ho. destruct o; try exact I. intros k Hk. eapply Ce; eassumption.
    - rewrite Dirt. exact Td.
    - eapply clean_tracked; eassumption.
  Qed.
  (** ... in particular in grids that cover the box *)
  Theorem covered_settles : forall bb sts depth n ops c0, 0 <= M -> n <> 0%nat -> proper bb -> sound_statics sts -> valid sts ops -> Forall grid_op ops ->
    Forall (centred_op bb) ops -> tidy ops false -> cde_new bb sts depth n = Ok c0 -> (forall g, cd_hpg c0 = Some g -> covered bb (hg_grid g)) ->
    settles (c0, []) ops.
  Proof.
    intros bb sts depth n ops c0 HM Nn Pb So V Go Ce Td E0 Cv.
    apply (reaches_settles bb sts depth n ops c0 (fun k => in_rect bb (ccen k))); auto.
    - intros h k Ho Hk. rewrite Forall_forall in Ce. apply (Ce _ Ho k Hk).
    - intros g dim Eg F. destruct (covered_regular bb sts dim g Pb F (Cv g Eg)) as (nx & ny & Rg & Lg & Mx & My).
      intros g1 h k b Sg W Lb Li Po P K0 (Kx & Ky). apply (regular_reaches _ _ _ _ _ _ Rg Lg); auto. split; lra.
  Qed.
  Lemma covered_exact : forall bb (sts : list hazard) depth n ops c0 c sn g, 0 <= M -> n <> 0%nat -> proper bb -> sound_statics sts -> valid sts ops ->
    Forall grid_op ops -> Forall (centred_op bb) ops -> tidy ops false ->
    cde_new bb sts depth n = Ok c0 -> (forall g0, cd_hpg c0 = Some g0 -> covered bb (hg_grid g0)) ->
    engine bb sts depth n ops = Ok (c, sn) -> cde_hpg c = Ok (Some g) -> every_cell (exact_cell (dynamic_facts ops)) (hg_grid g).
  Proof.
    intros bb sts depth n ops c0 c sn g M0 Nn Pb So V Go Ce Ti E0 Cv E Eg.
    apply (grid_exact BSok M bb sts depth n ops c0 c sn g Nn Pb So V Go E0); [|exact E|exact Eg].
    eapply covered_settles; eassumption.
  Qed.
End Tidy.
