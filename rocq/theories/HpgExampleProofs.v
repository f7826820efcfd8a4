(** Histories of a single cell, and an engine with a proximity grid meeting the hypotheses of
    the statements. *)
From Coq Require Import List Bool Arith Lia.
From Verif Require Import Base Num GeoModel HazardModel QTModel TransfModel HpgModel CdeModel HazVecProofs QTProofs BaseProofs CdeSpec CdeOpsProofs CdeHistProofs Instances GeoSpec ParityProofs
  GeoPrimProofs PlaceSpec HpgSpec HpgGridProofs HpgFillProofs HpgCellProofs HpgRegProofs HpgHistProofs HpgGenProofs HpgThmProofs HpgFullProofs HpgTidyProofs HpgRectProofs HpgThinProofs
  RegionProofs PlaceExampleProofs.
From Coq Require Import Reals Lra.
From Verif Require Import GeoModel HazardModel QTModel TransfModel HpgModel CdeModel CdeSpec GeoSpec PlaceSpec HpgSpec.
Import ListNotations.
Local Open Scope R_scope.

Section CellHist.
  Context {D : Type} {ED : EqD D}.
  Variable M : R.
  #[local] Instance NMc : Num R := RNumT Reqb M.
  Local Notation cell := (cell R D).
  Local Notation hazard := (hazard R D).

  Lemma ent_case : forall (e e' : entity D), {e = e' /\ ent_eqb e e' = true} + {e <> e' /\ ent_eqb e e' = false}.
  Proof. intros e e'. destruct (ent_eqb e e') eqn:Q; [left; apply ent_eqb_ok in Q; auto|right]. split; [|reflexivity]. intros ->. rewrite ent_eqb_refl in Q. discriminate. Qed.
  Lemma ent_negb : forall (e e' : entity D), negb (ent_eqb e e') = true <-> e <> e'.
  Proof. intros e e'. destruct (ent_case e e') as [[-> ->]|[N ->]]; cbn; split; intros; congruence. Qed.
  Lemma cell_history : forall (ops : list (cell_op D)) (c0 : cell), c_uni c0 = c_stat c0 -> Forall cell_op_ok ops ->
    exists c hs unc, rfold cell_step ops (c0, [], []) = Ok (c, hs, unc) /\ hs = fold_left told ops [] /\
      c_stat c = c_stat c0 /\ c_cen c = c_cen c0 /\ owned_cell unc (map fact_of hs) c /\ low_cell (map fact_of hs) c.
  Proof.
    intros ops c0 E0 Ok0.
    assert (K : forall ops c hs unc, Forall cell_op_ok ops -> probed_facts (map fact_of hs) -> c_stat c = c_stat c0 -> c_cen c = c_cen c0 ->
      owned_cell unc (map fact_of hs) c -> low_cell (map fact_of hs) c ->
      exists c' hs' unc', rfold cell_step ops (c, hs, unc) = Ok (c', hs', unc') /\ hs' = fold_left told ops hs /\
        c_stat c' = c_stat c0 /\ c_cen c' = c_cen c0 /\ owned_cell unc' (map fact_of hs') c' /\ low_cell (map fact_of hs') c').
    { clear ops Ok0. induction ops as [|o ops IH]; intros c hs unc Hok Pf Es Ec Ow Lo; cbn [rfold fold_left].
      - exists c, hs, unc. auto 8.
      - inversion Hok as [|? ? Ho Hok']; subst. destruct o as [h|e [|]|]; cbn [cell_step told].
        + destruct Ho as (Pi & Ac & Pr). destruct (register_hazard_ok M c h Pi Pr) as (u & k & E & Ik & Mk).
          assert (E' : cell_register_hazard c h = Ok (lower c (gap k (c_cen c)) (h_ent h), u)) by exact E. rewrite E'. cbn [rbind].
          apply IH; [exact Hok'| | | | |].
          * intros f Hf. rewrite map_app in Hf. apply in_app_iff in Hf as [Hf|[<-|[]]]; [apply Pf; exact Hf|]. split; [exact Pi|]. split; [exact Ac|exact Pr].
          * unfold lower. destruct (Rlt_dec _ _); exact Es.
          * unfold lower. destruct (Rlt_dec _ _); exact Ec.
          * unfold lower. destruct (Rlt_dec _ _) as [L|L].
            -- right. right. exists (fact_of h), k. split; [rewrite map_app; apply in_app_iff; right; left; reflexivity|]. split; [reflexivity|]. split; [exact Ik|reflexivity].
            -- destruct Ow as [Q|[Q|(f & k' & A & B)]]; [left; exact Q|right; left; exact Q|right; right; exists f, k'; split; [rewrite map_app; apply in_app_iff; left; exact A|exact B]].
          * destruct Lo as [L1 L2]. unfold lower. destruct (Rlt_dec (gap k (c_cen c)) (fst (c_uni c))) as [L|L].
            -- split; cbn [set_uni c_uni c_stat c_cen fst]; [lra|]. intros f k' Hf Hk'. rewrite map_app in Hf. apply in_app_iff in Hf as [Hf|[<-|[]]]; [|apply Mk; exact Hk'].
               specialize (L2 f k' Hf Hk'). lra.
            -- split; [exact L1|]. intros f k' Hf Hk'. rewrite map_app in Hf. apply in_app_iff in Hf as [Hf|[<-|[]]]; [apply (L2 f k' Hf Hk')|]. specialize (Mk k' Hk'). lra.
        + set (hs' := filter (fun h => negb (ent_eqb (h_ent h) e)) hs).
          assert (Sub : incl (map fact_of hs') (map fact_of hs)).
          { intros f Hf. apply in_map_iff in Hf as (h & <- & Hh). apply filter_In in Hh. apply in_map. apply Hh. }
          assert (Pf' : probed_facts (map fact_of hs')) by (intros f Hf; apply Pf, Sub, Hf).
          destruct (cell_deregister_ok M c [e] unc hs' (map fact_of hs) Pf' Sub) as (c' & E & (S1 & S2 & S3 & S4 & S5) & O' & L').
          * intros f Hf. apply in_map_iff in Hf as (h & <- & Hh). destruct (ent_case (h_ent h) e) as [[Q _]|[Q _]].
            -- left. left. symmetry. exact Q.
            -- right. apply in_map. apply filter_In. split; [exact Hh|]. apply ent_negb. exact Q.
          * destruct Ow as [Q|[Q|Q]]; [left; exact Q|right; left; apply in_app_iff; right; exact Q|right; right; exact Q].
          * assert (E' : cell_deregister [e] hs' c = Ok c') by exact E. rewrite E'. cbn [rbind].
            apply IH; [exact Hok'|exact Pf'|congruence|congruence|exact O'|apply L'; exact Lo].
        + set (hs' := filter (fun h => negb (ent_eqb (h_ent h) e)) hs).
          assert (Sub : incl (map fact_of hs') (map fact_of hs)).
          { intros f Hf. apply in_map_iff in Hf as (h & <- & Hh). apply filter_In in Hh. apply in_map. apply Hh. }
          cbn [rbind]. apply IH; [exact Hok'|intros f Hf; apply Pf, Sub, Hf|exact Es|exact Ec| |].
          * destruct Ow as [Q|[Q|(f & k & A & B & C)]]; [left; exact Q|right; left; apply in_app_iff; left; exact Q|].
            apply in_map_iff in A as (h & Eh & Hh). destruct (ent_case (h_ent h) e) as [[Q _]|[Q _]].
            -- right. left. apply in_app_iff. right. left. rewrite <- B, <- Eh. symmetry. exact Q.
            -- right. right. exists f, k. split; [|split; assumption]. rewrite <- Eh. apply in_map. apply filter_In. split; [exact Hh|]. apply ent_negb. exact Q.
          * destruct Lo as [L1 L2]. split; [exact L1|]. intros f k Hf. apply L2. apply Sub. exact Hf.
        + destruct (cell_deregister_ok M c unc [] hs (map fact_of hs) Pf (incl_refl _)) as (c' & E & (S1 & S2 & S3 & S4 & S5) & O' & L').
          * intros f Hf. right. exact Hf.
          * rewrite app_nil_r. exact Ow.
          * assert (E' : cell_deregister unc hs c = Ok c') by exact E. rewrite E'. cbn [rbind].
            apply IH; [exact Hok'|exact Pf|congruence|congruence|exact O'|apply L'; exact Lo]. }
    apply K; [exact Ok0|intros f []|reflexivity|reflexivity|left; exact E0|]. split; [rewrite E0; apply Rle_refl|intros f k []].
  Qed.
  Lemma cell_exact : forall (ops : list (cell_op D)) (c0 : cell), c_uni c0 = c_stat c0 -> Forall cell_op_ok ops ->
    exists c, rfold cell_step (ops ++ [CFlush]) (c0, [], []) = Ok (c, fold_left told ops [], []) /\
      c_stat c = c_stat c0 /\ c_cen c = c_cen c0 /\ exact_cell (map fact_of (fold_left told ops [])) c.
  Proof.
    intros ops c0 E0 Hok. destruct (cell_history (ops ++ [CFlush]) c0 E0) as (c & hs & unc & E & Eh & Es & Ec & Ow & Lo).
    { apply Forall_app. split; [exact Hok|]. constructor; [exact Logic.I|constructor]. }
    rewrite fold_left_app in Eh. cbn [fold_left told] in Eh. subst hs.
    assert (unc = []) as ->.
    { rewrite rfold_app in E. apply rbind_ok in E as ([[c1 hs1] unc1] & _ & E). cbn [rfold cell_step] in E. destruct (cell_deregister unc1 hs1 c1) as [c2|]; cbn [rbind] in E; [|discriminate]. injection E. intros. congruence. }
    exists c. split; [exact E|]. split; [exact Es|]. split; [exact Ec|]. split; assumption.
  Qed.
End CellHist.

(** *** the bin [10 x 10] with one item, on a grid of four cells *)
Section Example.
  #[local] Existing Instance NatEqD.
  #[local] Existing Instance LinSearch.
  #[local] Instance NMx : Num R := RNumT Reqb 1000.

  Lemma ex_static : Forall (@static_hazard nat) ex_st.
  Proof. constructor; [|constructor]. split; [apply good_sound, rbox_good; lra|]. split; [discriminate|exact Logic.I]. Qed.
  Lemma ex_statics : sound_statics ex_st.
  Proof. constructor; [|constructor]. apply good_sound, rbox_good; lra. Qed.
  Lemma ex_clear : clear_box ex_bb (filter (fun h => ent_universal (h_ent h)) ex_st).
  Proof.
    intros h p [<-|[]] [Hx Hy] Bl. cbn in Hx, Hy. destruct (rbox_inside 0 0 10 10 5 p Hx Hy) as [N Eo].
    unfold blocked in Bl. cbn [f_ent ent_position fact_of h_ent fst snd f_poly h_shape a_obj] in Bl. destruct Bl as [Bl|Bl]; [exact (N Bl)|].
    unfold f_poly in Bl. cbn [fst snd] in Bl. congruence.
  Qed.
  Lemma ex_proper : proper ex_bb. Proof. split; cbn; lra. Qed.
  Lemma ex_grid_ops : Forall grid_op ex_ops.
  Proof.
    constructor; [|constructor]. split; [reflexivity|]. split; [reflexivity|]. split; [reflexivity|]. split; [|cbn; lra].
    eexists. split; [reflexivity|]. cbn [s_poles s_bcircle]. split; [discriminate|]. split; [intros k [<-|[]]; cbn; lra|]. split; [cbn; lra|]. intros k p [<-|[]] H. exact H.
  Qed.
  Lemma ex_inside_poles : forall h, In (OReg h) ex_ops -> poles_inside (a_obj (h_shape h)).
  Proof.
    intros h [Q|[]]. injection Q as <-. intros k p [<-|[]] Hp. cbn [a_obj h_shape]. unfold in_disk in Hp. cbn [ccen crad] in Hp.
    assert (Sq : edist p (Pt ((5 + 7) / 2) ((5 + 7) / 2)) ^ 2 <= 1) by (pose proof (edist_nonneg p (Pt ((5 + 7) / 2) ((5 + 7) / 2))); nra).
    replace (edist p (Pt ((5 + 7) / 2) ((5 + 7) / 2)) ^ 2) with (edist p (Pt ((5 + 7) / 2) ((5 + 7) / 2)) * edist p (Pt ((5 + 7) / 2) ((5 + 7) / 2))) in Sq by ring.
    rewrite edist_sq in Sq. cbn [px py] in Sq.
    assert (Un : forall u v, u ^ 2 + v ^ 2 <= 1 -> -1 <= u <= 1) by (intros u v H; pose proof (pow2_ge_0 v); split; nra).
    assert (Bx : 5 <= px p <= 7) by (pose proof (Un _ _ Sq); lra). assert (By : 5 <= py p <= 7) by (rewrite Rplus_comm in Sq; pose proof (Un _ _ Sq); lra).
    destruct (on_border_dec (p_pts (rbox 5 5 7 7 1)) p) as [B|B]; [left; exact B|]. right.
    assert (5 < px p < 7 /\ 5 < py p < 7) as [Ix Iy].
    { assert (S : forall a b, on_seg (Ed a b) p -> In (Ed a b) (ring (p_pts (rbox 5 5 7 7 1))) -> False).
      { intros a b H I. apply B. exists (Ed a b). split; assumption. }
      assert (L : forall t, 0 <= t <= 1 -> p <> Pt (5 + t * 2) 5 /\ p <> Pt (7 - t * 2) 7 /\ p <> Pt 7 (5 + t * 2) /\ p <> Pt 5 (7 - t * 2)).
      { intros t Ht. repeat split; intros ->.
        - apply (S (Pt 5 5) (Pt 7 5)); [|simpl; auto]. exists t. split; [exact Ht|]. unfold at_t. apply pt_ext; cbn; lra.
        - apply (S (Pt 7 7) (Pt 5 7)); [|simpl; auto]. exists t. split; [exact Ht|]. unfold at_t. apply pt_ext; cbn; lra.
        - apply (S (Pt 7 5) (Pt 7 7)); [|simpl; auto]. exists t. split; [exact Ht|]. unfold at_t. apply pt_ext; cbn; lra.
        - apply (S (Pt 5 7) (Pt 5 5)); [|simpl; auto]. exists t. split; [exact Ht|]. unfold at_t. apply pt_ext; cbn; lra. }
      destruct p as [x y]. cbn [px py] in *. 
      assert (y <> 5) by (intros ->; apply (proj1 (L ((x - 5) / 2) ltac:(lra))); f_equal; lra).
      assert (y <> 7) by (intros ->; apply (proj1 (proj2 (L ((7 - x) / 2) ltac:(lra)))); f_equal; lra).
      assert (x <> 7) by (intros ->; apply (proj1 (proj2 (proj2 (L ((y - 5) / 2) ltac:(lra))))); f_equal; lra).
      assert (x <> 5) by (intros ->; apply (proj2 (proj2 (proj2 (L ((7 - y) / 2) ltac:(lra))))); f_equal; lra). lra. }
    apply (rbox_inside 5 5 7 7 1 p); lra.
  Qed.
  Lemma ex_centred : Forall (centred_op ex_bb) ex_ops.
  Proof. constructor; [|constructor]. intros k [<-|[]]. split; cbn; lra. Qed.

  Lemma ex_hpg : exists g, hpg_new ex_bb ex_st 4 = Ok g /\ covered ex_bb (hg_grid g) /\ fresh 1000 ex_bb ex_st 5 g.
  Proof.
    destruct (square_grid LinSearch_ok 1000 ex_bb ex_st 4 ex_proper) as (g & Eg & Cv); [cbn; lra|exact ex_static| |exact ex_clear|discriminate|].
    { eexists. split; [left; reflexivity|reflexivity]. }
    exists g. split; [exact Eg|]. split; [exact Cv|].
    destruct (hpg_new_ok LinSearch_ok 1000 ex_bb ex_st 4 g ex_proper ex_statics Eg) as (dim & F).
    enough (dim = 5) as -> by exact F.
    assert (Hs : Forall (@static_hazard nat) (filter (fun h => ent_universal (h_ent h)) ex_st)) by exact ex_static.
    assert (S4 : sqrt (10 * 10 / (1 + 1 + 1 + 1)) = 5). { replace (10 * 10 / (1 + 1 + 1 + 1)) with (5 * 5) by lra. apply sqrt_square. lra. }
    assert (G5 : gen_dim ex_bb 4 f1 = 5).
    { unfold gen_dim, r_area, fofN. cbn [fsqrt fmul fdiv f1 fofN NMx RNumT INR]. unfold r_width, r_height, ex_bb. cbn [x_min x_max y_min y_max fsub NMx RNumT].
      rewrite !Rminus_0_r, S4. lra. }
    destruct (attempt_full 1000 ex_bb (filter (fun h => ent_universal (h_ent h)) ex_st) 4 f1) as (out & Ea & La).
    { assert (Q : 0 < gen_dim ex_bb 4 f1) by (rewrite G5; lra). exact Q. }
    { intros i j Hi Hj. apply clear_kept; [exact ex_proper|exact Hs|discriminate|exact ex_clear| |exact Hi|exact Hj]. assert (Q : 0 < gen_dim ex_bb 4 f1) by (rewrite G5; lra). exact Q. }
    assert (C2 : Rceil_nat (10 / 5) = 2%nat).
    { assert (H1 : (1 < Rceil_nat (10 / 5))%nat) by (apply ceil_nat; cbn; lra). assert (H2 : ~ (2 < Rceil_nat (10 / 5))%nat) by (intros K; apply ceil_nat in K; cbn in K; lra). lia. }
    assert (L4 : length out = 4%nat).
    { rewrite La. assert (Q : gen_dim ex_bb 4 f1 = 5) by exact G5. assert (Q1 : r_width ex_bb / gen_dim ex_bb 4 f1 = 10 / 5) by (rewrite Q; cbn; lra).
      assert (Q2 : r_height ex_bb / gen_dim ex_bb 4 f1 = 10 / 5) by (rewrite Q; cbn; lra).
      transitivity (Rceil_nat (10 / 5) * Rceil_nat (10 / 5))%nat; [f_equal; f_equal; assumption|]. rewrite C2. reflexivity. }
    assert (Ege : generate ex_bb (filter (fun h => ent_universal (h_ent h)) ex_st) 4 = Ok out).
    { unfold generate. assert (Ar : flt f0 (r_area ex_bb) = true) by (unfold r_area; cbn; apply Rltb_spec; lra). rewrite Ar.
      change MAX_ITERATIONS with (S 24). generalize 24%nat as left. intros left. cbn [gen_loop].
      assert (Ea' : gen_attempt ex_bb (filter (fun h => ent_universal (h_ent h)) ex_st) 4 f1 = Ok out) by exact Ea. rewrite Ea'. cbn [rbind]. rewrite L4. reflexivity. }
    unfold hpg_new in Eg. assert (Ege' : @generate R (NMq 1000) nat ex_bb (filter (fun h => ent_universal (h_ent h)) ex_st) 4 = Ok out) by exact Ege.
    rewrite Ege' in Eg. cbn [rbind] in Eg. apply rbind_ok in Eg as (r0 & Er & Eg). apply rbind_ok in Eg as (els & _ & Eg). apply rbind_ok in Eg as (gr & _ & Eg). injection Eg as <-.
    pose proof (fr_rad _ _ _ _ _ F) as Rd. cbn [hg_rad] in Rd.
    destruct (gen_attempt_ok 1000 _ _ _ _ _ Ea) as (_ & Hr & _). destruct out as [|r out]; [discriminate|]. cbn [hd_error expect] in Er. injection Er as <-.
    destruct (proj1 (Hr r) (or_introl eq_refl)) as (i & j & _ & _ & -> & _).
    assert (Q5 : @gen_dim R (NMg 1000) ex_bb 4 f1 = 5) by exact G5.
    assert (Hd5 : half_diag dim = half_diag 5).
    { rewrite <- Rd. rewrite <- (square_diameter 1000 ex_bb 5 i j) by lra.
      change (@gen_dim R (NMg 1000) ex_bb 4 f1) with (@gen_dim R NMx ex_bb 4 f1). rewrite G5. unfold f2. cbn [fdiv fadd f1 NMq RNumT]. f_equal. }
    destruct (half_diag_sq dim (fr_dim _ _ _ _ _ F)) as (A1 & A2). destruct (half_diag_sq 5 ltac:(lra)) as (B1 & B2).
    rewrite Hd5 in A2. pose proof (fr_dim _ _ _ _ _ F). assert (dim * dim = 5 * 5) by lra. nra.
  Qed.

  Lemma ex_new : forall depth, exists c0 g, cde_new ex_bb ex_st depth 4 = Ok c0 /\ cd_hpg c0 = Some g /\ covered ex_bb (hg_grid g) /\ fresh 1000 ex_bb ex_st 5 g.
  Proof.
    intros depth. destruct ex_hpg as (g & Eg & Cv & F). destruct ex_valid as (Sok & shp & V).
    destruct (cde_new_ok (N := NMx) LinSearch_ok depth ex_bb ex_st 4 (proj1 Sok) (proj2 Sok)) as (qt & E & _).
    assert (Eg' : hpg_new ex_bb ex_st 4 = Ok g) by exact Eg. rewrite Eg' in E. cbn [rbind] in E. eexists _, g. split; [exact E|]. split; [reflexivity|]. split; assumption.
  Qed.
  Lemma ex_prox : forall c : cell R nat, length (c_qz c) = N_QUALITIES -> exists p, hazard_proximity c None = Ok p /\ p <= fst (c_uni c).
  Proof.
    intros c L. unfold hazard_proximity. assert (K : forall l a, (forall k, In k l -> (k < length (c_qz c))%nat) ->
      exists p, rfold (fun p k => z <- expect (nth_error (c_qz c) k) ;; Ok (fmin p z)) l a = Ok p /\ p <= a).
    { induction l as [|k l IH]; intros a H; cbn [rfold]; [exists a; split; [reflexivity|lra]|].
      destruct (nth_error (c_qz c) k) as [z|] eqn:E; [|apply nth_error_None in E; specialize (H k (or_introl eq_refl)); lia]. cbn [expect rbind].
      destruct (IH (fmin a z)) as (p & Ep & Lp); [intros k' Hk'; apply H; right; exact Hk'|]. exists p. split; [exact Ep|].
      cbn [fmin NMx RNumT] in Lp. pose proof (Rmin_l a z). lra. }
    apply K. intros k Hk. apply in_seq in Hk. lia.
  Qed.
  Lemma ex_run : forall depth, exists c sn g, engine ex_bb ex_st depth 4 ex_ops = Ok (c, sn) /\ cde_hpg c = Ok (Some g) /\
    every_cell (exact_cell (dynamic_facts ex_ops)) (hg_grid g) /\
    exists ce, In (Some ce) (g_cells (hg_grid g)) /\ c_bbox' ce = Rc 5 5 10 10 /\
      could_accommodate ce (24 / 5) None = Ok false /\ could_accommodate ce 3 None = Ok true.
  Proof.
    intros depth. destruct (ex_new depth) as (c0 & g0 & E0 & Eg0 & Cv & F).
    destruct (grid_no_panic LinSearch_ok 1000 ex_bb ex_st depth 4 ex_ops c0 ex_proper ex_statics ex_valid ex_grid_ops E0) as (c & sn & E).
    assert (Hn : 4%nat <> 0%nat) by discriminate.
    destruct (grid_dirty LinSearch_ok 1000 ex_bb ex_st depth 4 ex_ops c sn Hn ex_proper ex_statics ex_valid ex_grid_ops E) as (g & Ecd & Eg). cbn [pending ex_ops] in Eg.
    exists c, sn, g. split; [exact E|]. split; [exact Eg|].
    assert (Se : settles (c0, []) ex_ops).
    { apply (covered_settles LinSearch_ok 1000 ex_bb ex_st depth 4 ex_ops c0); [lra|exact Hn|exact ex_proper|exact ex_statics|exact ex_valid|exact ex_grid_ops|exact ex_centred|exact Logic.I|exact E0|].
      intros g' Q. rewrite Eg0 in Q. injection Q as <-. exact Cv. }
    pose proof (grid_exact LinSearch_ok 1000 ex_bb ex_st depth 4 ex_ops c0 c sn g Hn ex_proper ex_statics ex_valid ex_grid_ops E0 Se E Eg) as Ex. split; [exact Ex|].
    pose proof (grid_static LinSearch_ok 1000 ex_bb ex_st depth 4 ex_ops c sn g Hn ex_proper ex_statics ex_valid ex_grid_ops E Ecd) as Sta.
    assert (Hc : exists ce, In (Some ce) (g_cells (hg_grid g)) /\ c_bbox' ce = Rc 5 5 10 10 /\ c_rad ce = half_diag 5).
    { destruct (engine_grid' LinSearch_ok 1000 ex_bb ex_st depth 4 ex_ops c sn Hn ex_proper ex_statics ex_valid ex_grid_ops E) as (c0' & g0' & dim & shp & g' & E0' & F' & Eg' & G & _ & _ & Q0).
      assert (Ec : Ok c0' = Ok c0) by (rewrite <- E0'; exact E0). injection Ec as ->. rewrite Ecd in Eg'. injection Eg' as <-. rewrite Eg0 in Q0. injection Q0 as <-.
      destruct (fr_square _ _ _ _ _ F 1 1) as [(c1 & H1 & B1)|K]; [cbn; lra|cbn; lra| |].
      - apply In_nth_error in H1 as (i & Hi). assert (C1 : cell_at (hg_grid g0) i = Some c1) by (unfold cell_at; rewrite Hi; reflexivity).
        destruct (go_same _ _ _ _ _ _ G) as (_ & _ & _ & Sm). specialize (Sm i). rewrite C1 in Sm. destruct (cell_at (hg_grid g) i) as [c2|] eqn:C2; [|contradiction].
        destruct Sm as (S1 & S2 & S3 & S4 & S5). exists c2. split.
        + unfold cell_at in C2. destruct (nth_error (g_cells (hg_grid g)) i) as [[c3|]|] eqn:N; try discriminate. injection C2 as ->. eapply nth_error_In. exact N.
        + split; [rewrite S5, B1; unfold square; cbn; f_equal; lra|]. rewrite S3. apply (fr_cells _ _ _ _ _ F i c1 C1).
      - exfalso. destruct (K (Pt 7 7)) as (h & Hh & Uh & Bh); [split; cbn; lra|]. apply (ex_clear h (Pt 7 7)); [apply filter_In; split; assumption|split; cbn; lra|exact Bh]. }
    destruct Hc as (ce & Hce & Bce & Rce). exists ce. split; [exact Hce|]. split; [exact Bce|].
    destruct (Sta ce Hce) as [Sc Sr Su Sl Sz]. rewrite Bce in Sc. cbn [x_min x_max y_min y_max] in Sc.
    destruct (Ex ce Hce) as (Ow & Lo1 & Lo2). destruct (half_diag_sq 5 ltac:(lra)) as (H0 & H2).
    assert (R1 : 7 / 2 < half_diag 5) by nra. assert (R2 : half_diag 5 < 18 / 5) by nra.
    unfold could_accommodate. rewrite Rce. cbn [flt fadd NMx RNumT]. split; [|rewrite (proj2 (Rltb_spec 3 (half_diag 5))) by lra; reflexivity].
    rewrite (proj2 (Rltb_nspec (24 / 5) (half_diag 5))) by lra. destruct (ex_prox ce Sl) as (p & Ep & Lp). rewrite Ep. cbn [rbind]. f_equal. apply Rltb_nspec.
    assert (Gk : gap (Ci (Pt ((5 + 7) / 2) ((5 + 7) / 2)) 1) (c_cen ce) <= 6 / 5).
    { rewrite Sc. unfold gap. cbn [ccen crad]. set (e := edist _ _). assert (Q : e * e = (3 / 2) ^ 2 + (3 / 2) ^ 2) by (unfold e; rewrite edist_sq; cbn [px py]; lra).
      assert (0 <= e) by apply edist_nonneg. apply Rmax_lub; [lra|]. nra. }
    assert (Lk : fst (c_uni ce) <= gap (Ci (Pt ((5 + 7) / 2) ((5 + 7) / 2)) 1) (c_cen ce)).
    { apply (Lo2 (fact_of (Hz (PlacedItem 1 0%nat) (Arc 1 ex_item) true))); [left; reflexivity|left; reflexivity]. }
    lra.
  Qed.
  Lemma ex_hyps : proper ex_bb /\ Forall static_hazard ex_st /\ sound_statics ex_st /\ valid ex_st ex_ops /\
    Forall grid_op ex_ops /\ Forall (centred_op ex_bb) ex_ops /\ (forall h, In (OReg h) ex_ops -> poles_inside (a_obj (h_shape h))) /\
    clear_box ex_bb (filter (fun h => ent_universal (h_ent h)) ex_st) /\
    forall depth, exists c0 g, cde_new ex_bb ex_st depth 4 = Ok c0 /\ cd_hpg c0 = Some g /\ covered ex_bb (hg_grid g).
  Proof.
    split; [exact ex_proper|]. split; [exact ex_static|]. split; [exact ex_statics|]. split; [exact ex_valid|]. split; [exact ex_grid_ops|].
    split; [exact ex_centred|]. split; [exact ex_inside_poles|]. split; [exact ex_clear|].
    intros depth. destruct (ex_new depth) as (c0 & g & E & Eg & Cv & _). exists c0, g. auto.
  Qed.
End Example.
