(** Debug builds of engines with a proximity grid.  In exact arithmetic they behave
    like the release build exactly as long as every registration reaches all the cells
    it should. *)
From Coq Require Import List Bool Arith Lia Permutation Sorted.
From Verif Require Import Base Num GeoModel HazardModel QTModel TransfModel HpgModel CdeModel BaseProofs CdeSpec CdeOpsProofs CdeHistProofs GeoSpec ParityProofs
  GeoPrimProofs PlaceSpec HpgSpec HpgGridProofs HpgFillProofs HpgCellProofs HpgRegProofs HpgHistProofs HpgGenProofs HpgThmProofs
  ProblemProofs ProblemOpsProofs AssertModel AssertSpec AssertRefProofs AssertProofs AssertRealProofs.
From Coq Require Import Reals Lra.
From Verif Require Import GeoModel HazardModel QTModel TransfModel HpgModel CdeModel CdeSpec GeoSpec PlaceSpec HpgSpec AssertModel AssertSpec AssertGridSpec.
Import ListNotations.

Section Gen.
  Context {F : Type} {N : Num F} {D : Type} {ED : EqD D} {BS : BSearch}.
  Local Notation hazard := (hazard F D).
  Local Notation cell := (cell F D).
  Local Notation hpg := (hpg F D).
  Definition uni (h : hazard) : Prop := ent_universal (h_ent h) = true.

  Lemma rmapM_ext : forall {A B} (f g : A -> res B) l, (forall x, In x l -> f x = g x) -> rmapM f l = rmapM g l.
  Proof.
    intros A B f g l H. induction l as [|x l IH]; [reflexivity|]. cbn [rmapM]. rewrite (H x) by (left; reflexivity).
    rewrite IH by (intros; apply H; right; assumption). reflexivity.
  Qed.
  Lemma swap_remove_incl : forall {A} i (l : list A) x l', swap_remove i l = Some (x, l') -> incl l' l.
  Proof.
    intros A i l x l' H y Hy. assert (E : nth_error l i = Some x).
    { unfold swap_remove in H. destruct (nth_error l i); [|discriminate]. destruct (rev l); [discriminate|]. congruence. }
    apply nth_error_split in E as (l1 & l2 & -> & <-). apply swap_remove_perm in H.
    apply (Permutation_in _ H) in Hy. apply in_app_iff in Hy as [Hy|Hy]; apply in_app_iff; [left|right; right]; exact Hy.
  Qed.
  Lemma min_from_in : forall (l : list (hazard * option F)) i best x, In (snd best) x -> incl l x -> In (snd (min_index_from i best l)) x.
  Proof.
    induction l as [|y l IH]; intros i best x H I; cbn [min_index_from]; [exact H|]. apply IH.
    - destruct (optlt _ _); [apply I; left; reflexivity|exact H].
    - intros z Hz. apply I. right; exact Hz.
  Qed.
  Lemma min_index_in : forall (l : list (hazard * option F)) i x, min_index l = Some (i, x) -> In x l.
  Proof.
    intros [|y l] i x H; [discriminate|]. cbn [min_index] in H. injection H as H.
    pose proof (min_from_in l 1 (0, y) (y :: l) (or_introl eq_refl) (fun z Hz => or_intror Hz)) as K. rewrite H in K. exact K.
  Qed.
  Lemma register_loop_d_ok : forall fuel c (l : list (hazard * option F)), Forall (fun x => uni (fst x)) l ->
    register_loop_d fuel c l = register_loop fuel c l.
  Proof.
    induction fuel as [|f IH]; intros c l U; cbn [register_loop_d register_loop]; destruct (min_index l) as [[i [h bp]]|] eqn:E; try reflexivity.
    destruct (match bp with None => true | Some b => fle b (fst (c_uni c)) end); [|reflexivity].
    pose proof (min_index_in _ _ _ E) as Hin. rewrite Forall_forall in U. pose proof (U _ Hin) as Uh. unfold uni in Uh. cbn [fst] in Uh.
    unfold cell_register_hazard_d. rewrite Uh. cbn [rassert rbind]. apply bind_ext. intros [c' u].
    destruct (swap_remove i l) as [[x l']|] eqn:Es; [|reflexivity]. cbn [expect rbind]. apply IH. apply Forall_forall. intros y Hy.
    apply U. eapply swap_remove_incl; eassumption.
  Qed.
  Lemma register_hazards_d_ok : forall c (hs : list hazard), Forall uni hs -> cell_register_hazards_d c hs = cell_register_hazards c hs.
  Proof.
    intros c hs U. unfold cell_register_hazards_d, cell_register_hazards. destruct (rmapM _ _) as [l|] eqn:E; [|reflexivity]. cbn [rbind].
    apply register_loop_d_ok. apply rmapM_F2 in E. apply Forall_forall. intros [h b] Hx. apply F2_in_r with (1 := E) in Hx as (h0 & Hh & K).
    apply filter_In in Hh as (Hh & _). rewrite Forall_forall in U. unfold bounding_entry in K. destruct (ent_position (h_ent h0)).
    - injection K as <- _. apply U, Hh.
    - apply rbind_ok in K as (s & _ & K). injection K as <- _. apply U, Hh.
  Qed.
  Lemma cell_dereg_d_ok : forall es (hs : list hazard) c, Forall uni hs -> cell_deregister_d es hs c = cell_deregister es hs c.
  Proof. intros es hs c U. unfold cell_deregister_d, cell_deregister. destruct (memb _ _ _); [apply register_hazards_d_ok, U|reflexivity]. Qed.
  Lemma on_cells_ext : forall f g (gr : grid F cell), (forall c, f c = g c) -> on_cells f gr = on_cells g gr.
  Proof.
    intros f g gr H. unfold on_cells. rewrite (rmapM_ext _ (fun o => match o with Some c => c' <- g c ;; Ok (Some c') | None => Ok None end)); [reflexivity|].
    intros [c|] _; [rewrite H|]; reflexivity.
  Qed.
  Lemma hpg_dereg_d_ok : forall g e (hs : list hazard) b, Forall uni hs -> hpg_deregister_d g e hs b = hpg_deregister g e hs b.
  Proof.
    intros g e hs b U. unfold hpg_deregister_d, hpg_deregister. destruct b; [|reflexivity].
    rewrite (on_cells_ext _ (cell_deregister [e] hs)) by (intros; apply cell_dereg_d_ok, U). reflexivity.
  Qed.
  Lemma hpg_flush_d_ok : forall g (hs : list hazard), Forall uni hs -> hpg_flush_d g hs = hpg_flush g hs.
  Proof.
    intros g hs U. unfold hpg_flush_d, hpg_flush. destruct (hpg_dirty g); [|reflexivity].
    rewrite (on_cells_ext _ (cell_deregister (hg_unc g) hs)) by (intros; apply cell_dereg_d_ok, U). reflexivity.
  Qed.

  (** *** the fill *)
  Lemma cs_update_len : forall f l i l', cs_update f l i = Ok l' -> length l' = length l.
  Proof.
    intros f l i l' H. unfold cs_update in H. apply rbind_ok in H as (s & _ & H). apply rbind_ok in H as (s' & _ & H). injection H as <-.
    apply vset_length.
  Qed.
  Lemma init_queue_len : forall {T} b (g : grid F T) b', bf_init_queue b g = Ok b' -> length (bf_state b') = length (bf_state b).
  Proof.
    intros T b g b' H. unfold bf_init_queue in H. destruct (bf_rows b), (bf_cols b). destruct (_ && _); [|discriminate].
    apply rbind_ok in H as (m & _ & H). apply rbind_ok in H as (st & E & H). injection H as <-. cbn. eapply cs_update_len; exact E.
  Qed.
  Lemma bf_new_d_ok : forall {T} (g : grid F T) s, bf_new_d g s = bf_new g s.
  Proof. intros. unfold bf_new_d, bf_new. apply bind_ext. intros. apply bind_ext. intros. reflexivity. Qed.
  Lemma bf_new_len : forall {T} (g : grid F T) s b, bf_new g s = Ok b -> length (bf_state b) = n_rows g * n_cols g.
  Proof.
    intros T g s b H. unfold bf_new in H. apply rbind_ok in H as (r & _ & H). apply rbind_ok in H as (c & _ & H).
    apply init_queue_len in H. rewrite H. apply repeat_length.
  Qed.
  Lemma bf_reset_d_ok : forall {T} b (g : grid F T) s, length (bf_state b) = n_rows g * n_cols g ->
    bf_reset_d b g s = bf_reset b g s /\ forall b', bf_reset b g s = Ok b' -> length (bf_state b') = n_rows g * n_cols g.
  Proof.
    intros T b g s L. unfold bf_reset_d, bf_reset. rewrite L, Nat.eqb_refl. cbn [rassert rbind]. split.
    - apply bind_ext. intros. apply bind_ext. intros. reflexivity.
    - intros b' H. apply rbind_ok in H as (r & _ & H). apply rbind_ok in H as (c & _ & H). apply init_queue_len in H. rewrite H. cbn.
      rewrite map_length. exact L.
  Qed.
  Lemma fill_loop_d_ok : forall fuel h pole (g : grid F cell) b, uni h -> fill_loop_d fuel h pole g b = fill_loop fuel h pole g b.
  Proof.
    induction fuel as [|f IH]; intros h pole g b U; cbn [fill_loop_d fill_loop]; apply bind_ext; intros [[i|] b1]; try reflexivity.
    apply bind_ext. intros [c|].
    - unfold cell_register_pole_d. rewrite U. cbn [rassert rbind]. apply bind_ext. intros [c' u]. apply bind_ext. intros b2. apply IH, U.
    - apply bind_ext. intros b2. apply IH, U.
  Qed.
  Lemma fill_loop_dims : forall fuel h pole (g : grid F cell) b g', fill_loop fuel h pole g b = Ok g' -> g_rows g' = g_rows g /\ g_cols g' = g_cols g.
  Proof.
    induction fuel as [|f IH]; intros h pole g b g' H; cbn [fill_loop] in H; apply rbind_ok in H as ([[i|] b1] & _ & H);
      try discriminate; try (injection H as <-; auto).
    apply rbind_ok in H as ([c|] & _ & H).
    - apply rbind_ok in H as ([c' u] & _ & H). apply rbind_ok in H as (b2 & _ & H). apply IH in H. exact H.
    - apply rbind_ok in H as (b2 & _ & H). apply IH in H. exact H.
  Qed.
  Lemma poles_d_ok : forall rad h ps (g : grid F cell) b, uni h -> Forall (fun p => rect_ok (c_bbox p) = true /\ rect_ok (seed_box rad p) = true) ps ->
    length (bf_state b) = n_rows g * n_cols g ->
    rfold (hpg_register_pole_d rad h) ps (g, b) = rfold (hpg_register_pole rad h) ps (g, b).
  Proof.
    intros rad h ps. induction ps as [|p ps IH]; intros g b U Fp L; cbn [rfold]; [reflexivity|].
    inversion Fp as [|? ? (R1 & R2) Fp']; subst. destruct (bf_reset_d_ok b g (seed_box rad p) L) as (Er & Lr).
    assert (E : hpg_register_pole_d rad h (g, b) p = hpg_register_pole rad h (g, b) p).
    { unfold hpg_register_pole_d, hpg_register_pole. rewrite R1, R2, Er. cbn [rassert rbind]. apply bind_ext. intros b'.
      rewrite fill_loop_d_ok by exact U. reflexivity. }
    rewrite E. destruct (hpg_register_pole rad h (g, b) p) as [[g' b']|] eqn:E'; [|reflexivity]. cbn [rbind]. apply IH; auto.
    unfold hpg_register_pole in E'. apply rbind_ok in E' as (b1 & Eb & E'). apply rbind_ok in E' as (g1 & Eg & E').
    assert (g1 = g' /\ b1 = b') as (-> & ->) by (split; congruence). apply fill_loop_dims in Eg as (D1 & D2).
    unfold n_rows, n_cols. rewrite D1, D2. apply Lr, Eb.
  Qed.
  Lemma hpg_register_d_ok : forall g (h : hazard), uni h ->
    (forall s, p_surr (a_obj (h_shape h)) = Some s -> Forall (fun p => rect_ok (c_bbox p) = true /\ rect_ok (seed_box (hg_rad g) p) = true) (s_poles s)) ->
    (forall g', hpg_register g h = Ok g' -> no_affected_remain h (g_cells (hg_grid g')) = Ok true) ->
    hpg_register_d g h = hpg_register g h.
  Proof.
    intros g h U Rk Na. unfold hpg_register_d, hpg_register in *. destruct (p_surr (a_obj (h_shape h))) as [s|]; [|reflexivity]. cbn [expect rbind] in *.
    rewrite bf_new_d_ok. destruct (bf_new _ _) as [b|] eqn:Eb; [|reflexivity]. cbn [rbind] in *.
    rewrite (poles_d_ok _ _ _ _ _ U (Rk s eq_refl) (bf_new_len _ _ _ Eb)).
    destruct (rfold _ _ _) as [[gr b']|]; [|reflexivity]. cbn [rbind] in *. specialize (Na _ eq_refl). cbn [hg_grid] in Na.
    rewrite Na. reflexivity.
  Qed.
  (** a hazard enters the grid only through its entity and shape *)
  Lemma fill_loop_same : forall fuel (h1 h2 : hazard) pole (g : grid F cell) b, h_ent h1 = h_ent h2 ->
    fill_loop fuel h1 pole g b = fill_loop fuel h2 pole g b.
  Proof.
    intros fuel h1 h2 pole g b E. revert g b. induction fuel as [|f IH]; intros g b; cbn [fill_loop]; apply bind_ext; intros [[i|] b1]; try reflexivity.
    apply bind_ext. intros [c|].
    - unfold cell_register_pole. rewrite E. apply bind_ext. intros [c' u]. apply bind_ext. intros b2. apply IH.
    - apply bind_ext. intros b2. apply IH.
  Qed.
  Lemma hpg_register_same : forall (g : hpg) (h1 h2 : hazard), h_ent h1 = h_ent h2 -> a_obj (h_shape h1) = a_obj (h_shape h2) ->
    hpg_register g h1 = hpg_register g h2.
  Proof.
    intros g h1 h2 E1 E2. unfold hpg_register. rewrite E2. apply bind_ext. intros s. apply bind_ext. intros b.
    rewrite (rfold_ext (hpg_register_pole (hg_rad g) h1) (hpg_register_pole (hg_rad g) h2)); [reflexivity|].
    intros [g' b'] p. unfold hpg_register_pole. apply bind_ext. intros b2. rewrite (fill_loop_same _ _ _ _ _ _ E1). reflexivity.
  Qed.
End Gen.

Local Open Scope R_scope.
Section Real.
  Context {D : Type} {ED : EqD D} {BS : BSearch}.
  Hypothesis BSok : bsearch_ok BS.
  Variable M : R.
  #[local] Instance NMd : Num R := RNumT Reqb M.
  Local Notation cell := (cell R D).
  Local Notation hazard := (hazard R D).

  (** *** building the grid *)
  Lemma rfold_ext_in : forall {A B} (f g : A -> B -> res A) l a, (forall a x, In x l -> f a x = g a x) -> rfold f l a = rfold g l a.
  Proof.
    intros A B f g l. induction l as [|x l IH]; intros a H; cbn [rfold]; [reflexivity|]. rewrite (H a x) by (left; reflexivity).
    apply bind_ext. intros a'. apply IH. intros a0 y Hy. apply H. right; exact Hy.
  Qed.
  Lemma gen_attempt_d_ok : forall bb (hs : list hazard) target cf, proper bb -> gen_attempt_d bb hs target cf = gen_attempt bb hs target cf.
  Proof.
    intros bb hs target cf (Px & Py). unfold gen_attempt_d, gen_attempt. set (dim := gen_dim bb target cf).
    destruct (feq dim f0) eqn:Z; [reflexivity|].
    apply Reqb_nspec in Z. change (@f0 R NMd) with 0 in Z.
    assert (C : 0 < dim \/ dim < 0) by lra. destruct C as [C|C].
    - apply rfold_ext_in. intros acc i _. apply rfold_ext_in. intros acc' j _.
      match goal with |- (_ <- rassert (rect_ok ?r) ;; _) = _ => assert (E : rect_ok r = true) end.
      { apply rect_ok_proper. split; cbn [x_min x_max y_min y_max]; cbn [fadd fmul NMd RNumT]; lra. }
      rewrite E. reflexivity.
    - assert (E : fceilN (fdiv (r_width bb) dim) = 0%nat).
      { change (Rceil_nat (r_width bb / dim) = 0%nat). destruct (Rceil_nat (r_width bb / dim)) as [|m] eqn:E; [reflexivity|]. exfalso.
        assert (L : (0 < Rceil_nat (r_width bb / dim))%nat) by lia. apply ceil_nat in L. cbn [INR] in L.
        unfold r_width in L. cbn [fsub NMd RNumT] in L.
        assert (K : (x_max bb - x_min bb) / dim < 0).
        { unfold Rdiv. pose proof (Rinv_lt_0_compat dim C). apply Ropp_lt_cancel. rewrite Ropp_0, Ropp_mult_distr_r. apply Rmult_lt_0_compat; lra. }
        lra. }
      rewrite E. reflexivity.
  Qed.
  Lemma gen_loop_d_ok : forall left bb (hs : list hazard) target cf step prev, proper bb ->
    gen_loop_d left bb hs target cf step prev = gen_loop left bb hs target cf step prev.
  Proof.
    induction left as [|l IH]; intros bb hs target cf step prev P; cbn [gen_loop_d gen_loop]; rewrite gen_attempt_d_ok by exact P; [reflexivity|].
    apply bind_ext. intros cells. destruct (Nat.compare _ _); rewrite ?IH by exact P; reflexivity.
  Qed.
  Lemma hpg_new_d_ok : forall bb (sts : list hazard) n, proper bb -> hpg_new_d bb sts n = hpg_new bb sts n.
  Proof.
    intros bb sts n P. unfold hpg_new_d, hpg_new. destruct n; [reflexivity|]. unfold generate_d, generate.
    destruct (flt _ _); [|reflexivity]. rewrite gen_loop_d_ok by exact P. reflexivity.
  Qed.

  (** *** registering *)
  Lemma pole_rects : forall rad k, 0 <= rad -> 0 < crad k -> rect_ok (c_bbox k) = true /\ rect_ok (seed_box rad k) = true.
  Proof.
    intros rad k Hr Hk. split; apply rect_ok_proper; split; unfold seed_box, c_bbox, f2; cbn [x_min x_max y_min y_max];
      cbn [fadd fsub fmul f1 NMd RNumT]; lra.
  Qed.
  Lemma remain_iff : forall (h : hazard) (g : hpg R D), grid_hazard h ->
    no_affected_remain h (g_cells (hg_grid g)) = Ok true <-> settled (a_obj (h_shape h)) g.
  Proof.
    intros h g (P & U & Ac & Pr & _). unfold no_affected_remain, settled, every_cell.
    assert (K : forall o, exists b, still_affected h o = Ok b /\
      (b = false <-> forall c, o = Some c -> forall k, In k (poles_of (a_obj (h_shape h))) -> fst (c_uni c) <= gap k (c_cen c))).
    { intros [c|]; cbn [still_affected]; [|exists false; split; [reflexivity|]; split; [discriminate|reflexivity]].
      unfold cell_register_hazard_d. rewrite U. cbn [rassert rbind].
      pose proof (register_hazard_ok M c h P Pr) as (u & k & E & Ik & Mk).
      assert (Eu : u = Affected <-> gap k (c_cen c) < fst (c_uni c)).
      { pose proof E as E'. unfold cell_register_hazard in E'. rewrite P in E'. apply rbind_ok in E' as (s & _ & E'). apply rbind_ok in E' as (d & Ed & E').
        assert (Ed' : d = gap k (c_cen c) \/ ~ d < fst (c_uni c)).
        { cbn [flt NM' RNumT] in E'. unfold Rltb at 1 in E'. destruct (Rlt_dec d (fst (c_uni c))) as [L|L]; [|right; exact L]. left.
          injection E' as E' _. unfold lower in E'. destruct (Rlt_dec (gap k (c_cen c)) (fst (c_uni c))).
          - apply (f_equal (fun c => fst (c_uni c))) in E'. exact E'.
          - apply (f_equal (fun c => fst (c_uni c))) in E'. cbn in E'. lra. }
        cbn [flt NM' RNumT] in E'. unfold Rltb at 1 in E'. destruct (Rlt_dec d (fst (c_uni c))) as [L|L].
        - injection E' as _ <-. split; [intros _; destruct Ed'; [subst; exact L|contradiction]|reflexivity].
        - injection E' as E' E2. split.
          + intros ->. destruct (Rltb _ _) in E2; discriminate.
          + intros L2. exfalso. unfold lower in E'. destruct (Rlt_dec (gap k (c_cen c)) (fst (c_uni c))); [|contradiction].
            apply (f_equal (fun c => fst (c_uni c))) in E'. cbn in E'. lra. }
      assert (E' : cell_register_hazard c h = Ok (lower c (gap k (c_cen c)) (h_ent h), u)) by exact E. rewrite E'. cbn [rbind].
      eexists. split; [reflexivity|]. split.
      - intros Hu c' Ec k' Ik'. injection Ec as <-. specialize (Mk k' Ik'). destruct (Rlt_le_dec (gap k (c_cen c)) (fst (c_uni c))) as [L|L]; [|lra].
        apply Eu in L. subst u. discriminate.
      - intros H. specialize (H c eq_refl k Ik). destruct u; try reflexivity. exfalso. destruct Eu as (Eu & _). specialize (Eu eq_refl). lra. }
    assert (X : forall l, exists bs, rmapM (still_affected h) l = Ok bs /\
      (existsb (fun b => b) bs = false <-> forall c, In (Some c) l -> forall k, In k (poles_of (a_obj (h_shape h))) -> fst (c_uni c) <= gap k (c_cen c))).
    { induction l as [|o l (bs & E & I)]; cbn [rmapM]; [exists []; split; [reflexivity|]; split; [intros _ c []|reflexivity]|].
      destruct (K o) as (b & Eb & Ib). rewrite Eb, E. cbn [rbind]. exists (b :: bs). split; [reflexivity|]. cbn [existsb]. rewrite orb_false_iff, I, Ib.
      split; [intros (A & B) c [->|Hc]; [apply A; reflexivity|apply B, Hc]|intros H; split; [intros c ->; apply H; left; reflexivity|intros c Hc; apply H; right; exact Hc]]. }
    destruct (X (g_cells (hg_grid g))) as (bs & -> & I). cbn [rbind]. rewrite <- I. destruct (existsb _ _); cbn [negb]; split; intros H; congruence.
  Qed.
  Lemma grid_register_d : forall (g : hpg R D) (h : hazard), grid_hazard h -> stout (a_obj (h_shape h)) -> 0 <= hg_rad g ->
    (forall g', hpg_register g h = Ok g' -> settled (a_obj (h_shape h)) g') -> hpg_register_d g h = hpg_register g h.
  Proof.
    intros g h Gh St Hr Se. apply hpg_register_d_ok.
    - apply Gh.
    - intros s Es. apply Forall_forall. intros k Hk. apply pole_rects; [exact Hr|]. apply St. unfold poles_of. rewrite Es. exact Hk.
    - intros g' E. apply remain_iff; [exact Gh|]. apply Se, E.
  Qed.
  (** the check fails when it should *)
  Lemma grid_register_settles : forall (g g' : hpg R D) (h : hazard), grid_hazard h -> hpg_register_d g h = Ok g' -> settled (a_obj (h_shape h)) g'.
  Proof.
    intros g g' h Gh E. unfold hpg_register_d in E. apply rbind_ok in E as (s & Es & E). apply rbind_ok in E as (b & Eb & E).
    apply rbind_ok in E as ([gr b'] & Er & E). apply rbind_ok in E as (ok & Eo & E). apply rbind_ok in E as (u & Eu & E). apply rassert_ok in Eu. subst ok.
    injection E as <-. apply remain_iff; [exact Gh|]. exact Eo.
  Qed.

  (** *** histories *)
  Lemma run_d_grid : forall lvl bb shp st g0 rad, grid_wf g0 -> 0 <= rad -> forall ops c sn a,
    related lvl bb shp st c sn a -> ops_ok shp st a ops -> Forall grid_op ops -> Forall stout_op ops -> cok bb shp g0 rad c sn ->
    settles (c, sn) ops -> grid_run (c, sn) ops.
  Proof.
    intros lvl bb shp st g0 rad W Hr. induction ops as [|o ops IH]; intros c sn a Rel V Go So C Se; cbn [grid_run ops_ok fst settles] in *; [exact I|].
    destruct V as (V1 & V2). inversion Go as [|? ? Go1 Go2]; subst. inversion So as [|? ? So1 So2]; subst.
    destruct (step_grid BSok M lvl bb shp st g0 rad c sn a o W Hr Rel V1 Go1 C) as (c1 & sn1 & E & C1 & _ & _).
    assert (E' : step (c, sn) o = Ok (c1, sn1)) by exact E. destruct (Se _ E') as (Se1 & Se2).
    split.
    2: { intros s' Es. rewrite E' in Es. injection Es as <-. eapply IH; try eassumption. eapply (step_related BSok); eassumption. }
    pose proof C as ((g & Eg & G) & _ & Gd & Gu & _). intros g1 Eg1. rewrite Eg in Eg1. injection Eg1 as <-.
    assert (Ud : Forall uni (cd_dyn c)) by (eapply Forall_impl; [|exact Gd]; intros x Hx; apply Hx).
    destruct o as [h|e b| | | |k]; cbn [grid_op stout_op] in *.
    - intros h' Hh' Ee.
      assert (Ef : h' = h \/ In h' (cd_unc c)) by (destruct Hh'; auto).
      pose proof (rl_coh _ _ _ _ _ _ _ Rel) as Coh. apply Forall_app in Coh as (_ & Cu). rewrite Forall_forall in Cu, Gu.
      assert (Sh : grid_hazard h' /\ a_obj (h_shape h') = a_obj (h_shape h)).
      { destruct Ef as [-> | Hu]; [auto|]. split; [apply Gu, Hu|]. pose proof (Cu _ Hu) as Dh'. destruct V1 as (_ & Dh & _).
        unfold denotes in *. rewrite Ee in Dh'. congruence. }
      destruct Sh as (Gh' & Es).
      apply grid_register_d; [exact Gh'|rewrite Es; exact So1|rewrite (go_rad _ _ _ _ _ _ G); exact Hr|].
      intros g' Er. rewrite Es. apply Se1. cbn [fst].
      destruct V1 as (Wh & Dh & N1 & N2). pose proof (perm_ents _ _ (rl_facts _ _ _ _ _ _ _ Rel)) as Pe.
      destruct (cde_register_ok BSok lvl bb c h (rl_inv _ _ _ _ _ _ _ Rel)) as (qt & unc & h2 & Ec & R' & Hh2).
      { exact Wh. }
      { rewrite (rl_static _ _ _ _ _ _ _ Rel). unfold ents. rewrite map_app. intros X. apply in_app_or in X as [X|X]; [contradiction|].
        apply N2. eapply Permutation_in; [exact Pe|exact X]. }
      assert (S2 : h_ent h2 = h_ent h /\ a_obj (h_shape h2) = a_obj (h_shape h)).
      { destruct Hh2 as [(-> & _)|(E2 & Pm)]; [auto|]. split; [exact E2|].
        assert (Hu : In h2 (cd_unc c)) by (eapply Permutation_in; [symmetry; exact Pm|left; reflexivity]).
        pose proof (Cu _ Hu) as D2. unfold denotes in D2, Dh. rewrite E2 in D2. congruence. }
      destruct S2 as (S2a & S2b).
      cbn [step] in E'. rewrite Ec, Eg in E'. cbn [opt_hpg] in E'.
      rewrite (hpg_register_same g h2 h') in E' by congruence.
      assert (Er' : hpg_register g h' = Ok g') by exact Er. rewrite Er' in E'. cbn [rbind] in E'. injection E' as <- <-. reflexivity.
    - intros dyn Hd. apply hpg_dereg_d_ok. apply Forall_forall. intros x Hx. rewrite Forall_forall in Ud. apply Ud, Hd, Hx.
    - apply hpg_flush_d_ok, Ud.
    - apply hpg_flush_d_ok, Ud.
    - apply hpg_flush_d_ok, Ud.
    - exact I.
  Qed.
  Lemma debug_grid : forall bb sts depth n ops, proper bb -> sound_statics sts -> valid sts ops -> Forall grid_op ops -> Forall stout_op ops ->
    (forall c0, n <> 0%nat -> cde_new bb sts depth n = Ok c0 -> settles (c0, []) ops) ->
    engine_d bb sts depth n ops = engine bb sts depth n ops.
  Proof.
    intros bb sts depth n ops Pb Ss V Go So Se. pose proof (proper_divides depth bb Pb) as Dv.
    apply (debug_engine_grid BSok).
    - exact Dv.
    - exact V.
    - intros _. apply hpg_new_d_ok, Pb.
    - intros c0 E0. destruct V as (Sok & shp & V).
      destruct n as [|n].
      + eapply (no_grid_run BSok depth bb shp sts); [eapply (new_related BSok); eassumption|exact V|].
        unfold cde_new in E0. cbn [rbind] in E0. destruct (rfold _ _ _) in E0; [|discriminate]. injection E0 as <-. reflexivity.
      + specialize (Se c0 ltac:(discriminate) E0).
        destruct (cde_new_ok BSok depth bb sts (S n) (proj1 Sok) (proj2 Sok)) as (qt & E' & R').
        pose proof (new_related BSok depth bb shp sts (S n) c0 Sok E0) as Rel.
        rewrite E' in E0. apply rbind_ok in E0 as (og & Eg & E0). injection E0 as <-.
        apply rbind_ok in Eg as (g0 & Eg & Eo). injection Eo as <-.
        destruct (hpg_new_ok BSok M bb sts (S n) g0 Pb Ss Eg) as (dim & F).
        eapply (run_d_grid depth bb shp sts (hg_grid g0) (half_diag dim)); [apply F|apply sqrt_pos|exact Rel|exact V|exact Go|exact So| |exact Se].
        split; [|repeat split; constructor]. exists g0. split; [reflexivity|]. split; [apply F|apply F|apply same_grid_refl| |].
        * intros i c Hc. left. apply (fr_cells _ _ _ _ _ F i c Hc).
        * intros i c Hc. left. apply (fr_cells _ _ _ _ _ F i c Hc).
  Qed.
  (** and conversely the debug build aborts where a registration does not settle *)
  Lemma run_d_settles : forall lvl bb shp st g0 rad, grid_wf g0 -> 0 <= rad -> forall ops c sn a s1,
    related lvl bb shp st c sn a -> ops_ok shp st a ops -> Forall grid_op ops -> cok bb shp g0 rad c sn ->
    rfold step_d ops (c, sn) = Ok s1 -> settles (c, sn) ops.
  Proof.
    intros lvl bb shp st g0 rad W Hr. induction ops as [|o ops IH]; intros c sn a s1 Rel V Go C Ed; cbn [ops_ok settles rfold] in *; [exact I|].
    destruct V as (V1 & V2). inversion Go as [|? ? Go1 Go2]; subst.
    destruct (step_grid BSok M lvl bb shp st g0 rad c sn a o W Hr Rel V1 Go1 C) as (c1 & sn1 & E & C1 & _ & _).
    assert (E' : step (c, sn) o = Ok (c1, sn1)) by exact E.
    apply rbind_ok in Ed as (s2 & Ed1 & Ed2).
    assert (Es2 : s2 = (c1, sn1)).
    { destruct (AssertRefProofs.step_ref (c, sn) o) as [X|X]; congruence. }
    subst s2. intros s' Es. assert (s' = (c1, sn1)) by congruence. subst s'. split.
    2: { eapply IH; try eassumption. eapply (step_related BSok); eassumption. }
    destruct o as [h|e b| | | |k]; try exact I. intros gx Egx. cbn [fst grid_op] in *.
    pose proof C as ((g & Eg & G) & _ & Gd & Gu & _).
    pose proof (rl_coh _ _ _ _ _ _ _ Rel) as Coh. apply Forall_app in Coh as (_ & Cu). rewrite Forall_forall in Cu, Gu.
    destruct V1 as (Wh & Dh & N1 & N2).
    cbn [step_d] in Ed1. apply rbind_ok in Ed1 as (c2 & Ed1 & Ed3). injection Ed3 as ->.
    unfold cde_register_d in Ed1. rewrite Eg in Ed1. apply rbind_ok in Ed1 as (u & _ & Ed1).
    apply rbind_ok in Ed1 as ([[qt unc] h2] & Eh & Ed1). cbn [opt_hpg] in Ed1.
    apply rbind_ok in Ed1 as (og & Eog & Ed1). apply rbind_ok in Ed1 as (u' & _ & Ed1).
    apply rbind_ok in Eog as (g2 & Eg2 & Eog). injection Eog as <-.
    assert (gx = g2) by (injection Ed1 as <-; cbn [cd_hpg] in Egx; congruence). subst gx.
    assert (Sh : grid_hazard h2 /\ a_obj (h_shape h2) = a_obj (h_shape h)).
    { destruct (position _ _) as [i|] eqn:Ep in Eh.
      - apply rbind_ok in Eh as ([u2 unc2] & Esw & Eh). apply rbind_ok in Eh as (qt2 & _ & Eh). injection Eh as _ _ ->.
        apply expect_ok in Esw.
        destruct (position_some _ _ _ Ep) as (l1 & x & l2 & El & Li & Px & _).
        assert (Hu : In h2 (cd_unc c) /\ h_ent h2 = h_ent h).
        { rewrite El in Esw. subst i. rewrite swap_remove_spec in Esw. injection Esw as <- _.
          split; [rewrite El; apply in_elt|]. apply HazVecProofs.ent_eqb_ok in Px. congruence. }
        destruct Hu as (Hu & E2). split; [apply Gu, Hu|]. pose proof (Cu _ Hu) as D2. unfold denotes in D2, Dh. rewrite E2 in D2. congruence.
      - apply rbind_ok in Eh as (qt2 & _ & Eh). injection Eh as _ _ ->. auto. }
    destruct Sh as (Gh & Es2). rewrite <- Es2.
    eapply grid_register_settles; eassumption.
  Qed.
  Lemma debug_grid_only : forall bb sts depth n ops c0 s, n <> 0%nat -> proper bb -> sound_statics sts -> valid sts ops -> Forall grid_op ops ->
    cde_new bb sts depth n = Ok c0 -> engine_d bb sts depth n ops = Ok s -> settles (c0, []) ops.
  Proof.
    intros bb sts depth n ops c0 s Hn Pb Ss V Go E0 E. destruct n as [|n]; [congruence|]. destruct V as (Sok & shp & V).
    unfold engine_d in E. apply rbind_ok in E as (c1 & E1 & E).
    assert (c1 = c0) by (destruct (AssertRefProofs.cde_new_ref bb sts depth (S n)) as [X|X]; congruence). subst c1.
    destruct (cde_new_ok BSok depth bb sts (S n) (proj1 Sok) (proj2 Sok)) as (qt & E' & R').
    pose proof (new_related BSok depth bb shp sts (S n) c0 Sok E0) as Rel.
    rewrite E' in E0. apply rbind_ok in E0 as (og & Eg & E0). injection E0 as <-.
    apply rbind_ok in Eg as (g0 & Eg & Eo). injection Eo as <-.
    destruct (hpg_new_ok BSok M bb sts (S n) g0 Pb Ss Eg) as (dim & F).
    eapply (run_d_settles depth bb shp sts (hg_grid g0) (half_diag dim)); [apply F|apply sqrt_pos|exact Rel|exact V|exact Go| |exact E].
    split; [|repeat split; constructor]. exists g0. split; [reflexivity|]. split; [apply F|apply F|apply same_grid_refl| |].
    * intros i c Hc. left. apply (fr_cells _ _ _ _ _ F i c Hc).
    * intros i c Hc. left. apply (fr_cells _ _ _ _ _ F i c Hc).
  Qed.
  (** so the two builds agree exactly on the histories in which every registration settles *)
  Lemma debug_grid_iff : forall bb sts depth n ops c0, n <> 0%nat -> proper bb -> sound_statics sts -> valid sts ops -> Forall grid_op ops -> Forall stout_op ops ->
    cde_new bb sts depth n = Ok c0 ->
    (engine_d bb sts depth n ops = engine bb sts depth n ops <-> settles (c0, []) ops) /\
    (engine_d bb sts depth n ops = Panic <-> ~ settles (c0, []) ops).
  Proof.
    intros bb sts depth n ops c0 Hn Pb Ss V Go So E0.
    assert (T : exists s, engine bb sts depth n ops = Ok s).
    { destruct (engine_grid BSok M bb sts depth n ops c0 Hn Pb Ss V Go E0) as (g0 & dim & c & sn & shp & _ & E & _). exists (c, sn). exact E. }
    destruct T as (s & T).
    assert (K : settles (c0, []) ops -> engine_d bb sts depth n ops = Ok s).
    { intros Se. rewrite <- T. apply debug_grid; auto. intros c1 _ E1. assert (c1 = c0) by congruence. subst. exact Se. }
    assert (K2 : engine_d bb sts depth n ops = Ok s -> settles (c0, []) ops) by (intros E; eapply debug_grid_only; eassumption).
    rewrite T. split; split; try assumption.
    - intros E Se. rewrite (K Se) in E. discriminate.
    - intros Ns. destruct (engine_d bb sts depth n ops) as [s2|] eqn:E; [|reflexivity]. exfalso. apply Ns. eapply debug_grid_only; eassumption.
  Qed.
End Real.
