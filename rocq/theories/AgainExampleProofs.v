(** Squares in bins and in a strip: problems with items in them are solved further; a strip
    cut to its items and filled again at its left end. *)
From Coq Require Import List Bool Arith ZArith Lia Permutation.
From Verif Require Import Base Num GeoModel HazardModel QTModel TransfModel HpgModel CdeModel CdeSpec
  PolyModel SlotMapModel LayoutModel ProblemModel ProblemSpec LbfModel BaseProofs HazVecProofs SlotMapProofs QTProofs ProblemProofs ProblemOpsProofs LayoutProofs MirrorProofs MirrorThmProofs StripProofs FitProofs Instances
  GeoPrimProofs ParityProofs RigidProofs RegionProofs PlaceExampleProofs RectPolyProofs HpgSpec LbfSpec LbfProofs LbfRunProofs LbfHistProofs LbfSpProofs LbfBpProofs LbfThmProofs LbfExampleProofs LbfBpTotalProofs StripBinProofs LbfStripThmProofs
  LbfExample2Proofs SelfCheckExampleProofs LbfSpTotalProofs HistPackSpec HistPackProofs ReachProofs ReachExampleProofs ProblemThmProofs AgainModel AgainSpec AgainProofs AgainStripProofs AgainReplayProofs.
From Coq Require Import Reals Lra.
From Verif Require Import GeoModel HazardModel QTModel TransfModel HpgModel CdeModel CdeSpec GeoSpec PlaceSpec HpgSpec ShapeSpec LbfModel LbfSpec HistPackSpec AgainModel AgainSpec.
Import ListNotations.
Local Open Scope R_scope.

Section E.
  Variable M : R.
  Hypothesis HM : 1 < M.
  #[local] Instance NAX : Num R := RNumT Reqb M.
  #[local] Existing Instance RTrig.
  #[local] Existing Instance DtEq.
  #[local] Existing Instance LinSearch.
  #[local] Existing Instance REx.
  Context {G : Type} {RG : Rng R G}.

  (** one of three squares is placed *)
  Lemma again_bp_example : forall (g : G) ptr, exists (b : bin R (dtransf R)) inst ops p h p' s g' ptr',
    bpinst_new squares [(b, 2%nat)] = Ok inst /\ good_bin b /\ fine_items squares /\ fine_bins [(b, 2%nat)] /\
    bchecked true (bp_new inst, []) ops /\ bp_run true inst ops = Ok (p, h) /\ items_in (bp_layouts p) = [0%nat] /\
    solve_bp (LC 5 2) p g ptr = Ok (p', s, g', ptr').
  Proof.
    intros g ptr. destruct (two_bins M HM) as (b & inst & Eb & Ei & Sd & Gb & Fb & Nc). pose proof (inst_ids _ _ _ Ei) as Ids. destruct (inst_lists M _ _ _ Ei) as (Li & Lb).
    assert (Fi : fine_items squares) by (eapply Forall_impl; [|exact Sd]; intros x Hx; exact (so_shape _ _ Hx)).
    assert (T0 : TInv M inst (bp_new inst)).
    { apply (new_T M LinSearch_ok inst); [split; [eauto|rewrite Lb; constructor; [exact Gb|constructor]]|rewrite Lb; exact Fb|rewrite Lb; constructor; [exact Nc|constructor]]. }
    assert (Snd : Forall (fun x => sound_item M (fst x)) (bi_items inst)) by (rewrite Li; exact Sd).
    assert (Pk : family_packed squares [(b, 2%nat)] [(0%nat, [(0%nat, at_ 4 4)])]).
    { constructor; [|constructor]. split; [discriminate|]. exists b, 2%nat. split; [reflexivity|]. cbn [snd].
      refine (packed_incl M _ _ _ _ _ _ (good_packed M b Eb)); [constructor; [intros []|constructor]|]. intros x [<-|[]]. right. left. reflexivity. }
    destruct (fill_family M LinSearch_ok inst Ids Snd true [(0%nat, [(0%nat, at_ 4 4)])] [] (bp_new inst) T0) as (ops & p & Rn & C & T & F).
    - constructor.
    - rewrite Li, Lb. exact Pk.
    - rewrite Li. intros [|i] it q E; [|destruct i; discriminate]. cbn in E. injection E as <- <-. cbn. lia.
    - rewrite Lb. intros [|i] bn q E; [|destruct i; discriminate]. cbn in E. injection E as <- <-. cbn. lia.
    - pose proof (all_bchecked M true ops _ C) as Cb. pose proof T as (I & _).
      destruct (order_total M inst) as (order & Eo); [rewrite Li; left; cbn; lia|]. pose proof (order_perm M _ _ Eo) as Po.
      destruct (fills_total M LinSearch_ok REx_sane inst Ids Snd (h := []) (LC 5 2)) with (is := order) (p := p) (g := g) (ptr := ptr) as (p1 & g1 & ptr1 & E1 & T1); [cbn; lia| |exact T|].
      { intros i Hi. apply (Permutation_in _ Po) in Hi. apply in_seq in Hi. lia. }
      destruct (create_total M LinSearch_ok inst p1 T1) as (s & p2 & Es).
      exists b, inst, (place_ops ops), p, [], p2, s, g1, ptr1. do 4 (split; [assumption|]). split; [exact Cb|]. split; [exact Rn|]. split.
      + apply Permutation_length_1_inv. symmetry. apply items_of_fam in F. rewrite F. reflexivity.
      + unfold solve_bp. rewrite (b_inst _ _ _ I). assert (Eo' : item_order (bi_items inst) = Ok order) by exact Eo. rewrite Eo'. cbn [rbind].
        assert (E1' : rfold (bp_fill_item (LC 5 2)) order (p, g, ptr) = Ok (p1, g1, ptr1)) by exact E1. rewrite E1'. cbn [rbind].
        assert (Es' : bp_create p1 None = Ok (s, p2)) by exact Es. rewrite Es'. reflexivity.
  Qed.

  (** *** a strip *)
  Definition column : list (nat * dtransf R) := [(0%nat, at_ 3 1); (0%nat, at_ 3 4); (0%nat, at_ 3 7)].
  Lemma strip_start : exists (inst : spinst R) ops p0 p, spinst_new squares 10 = Ok inst /\ Forall (fun x => sound_item M (fst x)) squares /\
    strips_constructible (Cfg 3 1) 10 /\ sp_new inst 10 (Cfg 3 1) 0 = Ok p0 /\ schecked_run true (1/2) (p0, []) ops /\ rfold (sstep true (1/2)) ops (p0, []) = Ok (p, []) /\
    STI M inst (Cfg 3 1) p /\ Permutation (placed (sp_layout p)) column /\ x_min (strip_bbox p) = 0 /\ x_max (strip_bbox p) = 10.
  Proof.
    set (inst := SPI squares (items_area squares) 10). assert (Hn : spinst_new squares 10 = Ok inst) by reflexivity. pose proof (sinst_ids _ _ _ Hn) as Ids.
    assert (Sd : Forall (fun x => sound_item M (fst x)) squares) by (constructor; [apply sq_sound; lra|constructor]).
    assert (Con : strips_constructible (Cfg 3 1) 10) by (apply (one_cell_strips M LinSearch_ok); [lra|reflexivity]).
    assert (Nc : cfg_cells (Cfg 3 1) <> 0%nat) by discriminate.
    destruct (Con 0 10 0%nat) as (b & Eb); [lra|]. replace (0 + 10) with 10 in Eb by lra.
    assert (Eb' : bin_from_strip (Rc f0 f0 10 (si_height inst)) (Cfg 3 1) 0 = Ok b) by exact Eb.
    set (p0 := ProblemModel.SP inst (layout_new 0 b) (map (fun p => Z.of_nat (snd p)) (si_items inst)) 0 0).
    assert (E0 : sp_new inst 10 (Cfg 3 1) 0 = Ok p0) by (unfold sp_new; rewrite Eb'; reflexivity).
    assert (Pk : packed squares b column).
    { apply (squares_packed M _ b Eb).
      - repeat (constructor; [intros X; repeat (destruct X as [X|X]; [injection X; intros; lra|]); exact X|]). constructor.
      - intros z [<-|[<-|[<-|[]]]]; [exists 3, 1|exists 3, 4|exists 3, 7]; (split; [reflexivity|]); lra.
      - intros x y x' y' [E|[E|[E|[]]]] [E'|[E'|[E'|[]]]]; injection E as <- <-; injection E' as <- <-; try (left; reflexivity); right; lra. }
    assert (H : HL M (si_items inst) (sp_layout p0)) by exact (strip_HL M LinSearch_ok inst (Cfg 3 1) Nc 0 _ _ b Eb).
    pose proof (sp_new_SPInv M LinSearch_ok _ _ _ _ _ E0) as Q.
    destruct (fill_strip M LinSearch_ok inst true (1/2) Ids Sd column p0 (q_inv _ _ _ Q) H) as (ops & p & C & Rn & B & Pm & Hp); [exact Pk|]. cbn [p0 sp_layout placed] in Pm.
    change (placed (layout_new 0 b)) with (@nil (nat * dtransf R)) in Pm. rewrite app_nil_r in Pm.
    assert (Fi : fine_items squares) by (eapply Forall_impl; [|exact Sd]; intros z Hz; exact (so_shape _ _ Hz)).
    destruct (strip_history M LinSearch_ok _ _ _ _ _ _ _ _ _ _ _ _ Hn Fi E0 C Rn) as (Ei & I & _).
    exists inst, ops, p0, p. do 6 (split; [assumption|]). split; [|split; [exact Pm|unfold strip_bbox; rewrite B; cbn [p0 sp_layout layout_new ly_bin]; rewrite (strip_box M _ _ _ _ Eb) by (split; cbn; lra); split; reflexivity]].
    split; [exact (HSI_SPInv M _ _ _ I)|]. split; [exact Hp|]. split.
    - intros [|i] it q E; [|destruct i; discriminate]. cbn in E. injection E as <- <-.
      assert (Pl : Permutation (lst (sp_layout p)) [0%nat; 0%nat; 0%nat]).
      { apply (Permutation_map fst) in Pm. unfold placed in Pm. rewrite map_map in Pm. exact Pm. }
      rewrite (count_perm _ _ _ Pl). cbn. lia.
    - rewrite B. cbn [p0 sp_layout layout_new ly_bin]. split; [exact (strip_cfg M _ _ _ _ Eb)|].
      unfold strip_bbox. rewrite B. cbn [p0 sp_layout layout_new ly_bin]. rewrite (strip_box M _ _ _ _ Eb) by (split; cbn; lra). split; reflexivity.
  Qed.
  Lemma fill_done : forall fuel cfg i it (p : sp R (dtransf R)) (g : G) ptr, nth_error (sp_missing p) i = Some 0%Z -> sp_fill fuel cfg i it (p, g, ptr) = Ok (Some (p, g, ptr)).
  Proof. intros fuel cfg i it p g ptr E. destruct fuel; cbn [sp_fill]; rewrite E; reflexivity. Qed.
  (** all squares are there: the strip is only cut *)
  Lemma again_sp_example : forall (g : G) ptr, exists (inst : spinst R) ops p0 p p' s g' ptr', spinst_new squares 10 = Ok inst /\ fine_items squares /\
    sp_new inst 10 (Cfg 3 1) 0 = Ok p0 /\ schecked_run true (1/2) (p0, []) ops /\ rfold (sstep true (1/2)) ops (p0, []) = Ok (p, []) /\
    no_more_than squares [sp_layout p] /\ length (placed (sp_layout p)) = 3%nat /\ solve_sp 1 (1/2) (LC 5 2) p g ptr = Ok (Some (p', s, g', ptr')).
  Proof.
    intros g ptr. destruct strip_start as (inst & ops & p0 & p & Hn & Sd & Con & E0 & C & Rn & T & Pm & X1 & X2). pose proof (sinst_ids _ _ _ Hn) as Ids.
    assert (Fi : fine_items squares) by (eapply Forall_impl; [|exact Sd]; intros z Hz; exact (so_shape _ _ Hz)).
    assert (Ei : si_items inst = squares /\ si_height inst = 10) by (unfold spinst_new in Hn; cbn in Hn; injection Hn as <-; auto). destruct Ei as (Ei & Eh).
    assert (Snd : Forall (fun x => sound_item M (fst x)) (si_items inst)) by (rewrite Ei; exact Sd).
    assert (Con' : strips_constructible (Cfg 3 1) (si_height inst)) by (rewrite Eh; exact Con). assert (Hh : 0 < si_height inst) by (rewrite Eh; lra).
    pose proof T as (Q & H & Ne & _). pose proof (q_inv _ _ _ Q) as I.
    assert (Cn : count 0 (lst (sp_layout p)) = 3%nat).
    { apply (Permutation_map fst) in Pm. unfold placed in Pm. rewrite map_map in Pm. change (Permutation (lst (sp_layout p)) [0%nat; 0%nat; 0%nat]) in Pm. rewrite (count_perm _ _ _ Pm). reflexivity. }
    assert (Np : placed (sp_layout p) <> []) by (intros Z; rewrite Z in Pm; apply Permutation_nil in Pm; discriminate).
    destruct (fit_total M LinSearch_ok inst Ids Snd (Cfg 3 1)) with (tol := 1/2) (p := p) (ptr := ptr) as (p1 & E1 & T1); try assumption; try lra; try discriminate.
    destruct (screate_ok M LinSearch_ok inst (Cfg 3 1) ltac:(discriminate) p1 (q_inv _ _ _ (proj1 T1)) (proj1 (proj2 T1))) as (s & p2 & Es).
    exists inst, ops, p0, p, p2, s, g, (S ptr + sm_len (ly_items (sp_layout p)))%nat. do 5 (split; [assumption|]). split; [|split].
    - intros [|i] it q E; [|destruct i; discriminate]. cbn in E. injection E as <- <-. unfold copies, items_in. cbn [flat_map]. rewrite app_nil_r. change (count 0 (lst (sp_layout p)) <= 3)%nat. lia.
    - rewrite (Permutation_length Pm). reflexivity.
    - unfold solve_sp. rewrite (s_inst _ _ _ I), Ei. change (item_order squares) with (Ok [0%nat]). cbn [rbind].
      assert (Em : nth_error (sp_missing p) 0 = Some 0%Z).
      { assert (N0 : nth_error (si_items inst) 0 = Some (sq_item 2, 3%nat)) by (rewrite Ei; reflexivity). pose proof (proj2 (proj2 (s_miss _ _ _ I)) _ _ _ N0) as Z. unfold lst in Cn. cbv beta in Z. rewrite Z. f_equal. change (Z.of_nat 3 - Z.of_nat (count 0 (lst (sp_layout p))) = 0)%Z. unfold lst. rewrite Cn. reflexivity. }
      assert (Ef : sp_fill_all 1 (LC 5 2) [0%nat] (p, g, ptr) = Ok (Some (p, g, ptr))).
      { cbn [sp_fill_all fst]. rewrite (s_inst _ _ _ I), Ei. change (item_of squares 0) with (Ok (sq_item 2)). cbn [rbind]. rewrite (fill_done _ _ _ _ _ _ _ Em). reflexivity. }
      rewrite Ef. cbn [rbind].
      assert (E1' : fit_strip (1/2) p ptr = Ok p1) by exact E1. rewrite E1'. cbn [rbind].
      assert (Es' : sp_create p1 = Ok (s, p2)) by exact Es. rewrite Es'. reflexivity.
  Qed.

  Lemma column_width : forall l : layout R (dtransf R), (forall v, In v (sm_values (ly_items l)) -> x_min (p_bbox (a_obj (pi_shape v))) = 3 /\ x_max (p_bbox (a_obj (pi_shape v))) = 5) ->
    sm_values (ly_items l) <> [] -> occupied_width l = 2.
  Proof.
    intros l A N. unfold occupied_width, occupied_range. destruct (sm_values (ly_items l)) as [|v vs]; [congruence|]. cbn [map].
    destruct (A v (or_introl eq_refl)) as (V1 & V2). rewrite V1, V2.
    assert (K : forall us, (forall v, In v us -> x_min (p_bbox (a_obj (pi_shape v))) = 3 /\ x_max (p_bbox (a_obj (pi_shape v))) = 5) ->
      fold_left (fun m b => fmin m (x_min b)) (map (fun pi : pitem R (dtransf R) => p_bbox (a_obj (pi_shape pi))) us) 3 = 3 /\
      fold_left (fun m b => fmax m (x_max b)) (map (fun pi : pitem R (dtransf R) => p_bbox (a_obj (pi_shape pi))) us) 5 = 5).
    { induction us as [|u us IH]; intros U; cbn [map fold_left]; [split; reflexivity|]. destruct (U u (or_introl eq_refl)) as (U1 & U2). rewrite U1, U2.
      change (fmin 3 3) with (Rmin 3 3). change (fmax 5 5) with (Rmax 5 5). rewrite Rmin_left, Rmax_left by lra. apply IH. intros w Hw. apply U. right. exact Hw. }
    destruct (K vs (fun w Hw => A w (or_intror Hw))) as (K1 & K2). rewrite K1, K2. change (5 - 3 = 2). lra.
  Qed.
  Lemma cut_width : forall (p p' : sp R (dtransf R)) ptr, y_min (strip_bbox p) < y_max (strip_bbox p) -> occupied_width (sp_layout p) = 2 -> fit_strip (1/2) p ptr = Ok p' ->
    x_max (strip_bbox p') - x_min (strip_bbox p') = 2 * (1 + 1/2).
  Proof.
    intros p p' ptr Hy Ow H. unfold fit_strip in H. apply rbind_ok in H as (q & H & E). apply rbind_ok in E as (? & _ & E). injection E as ->.
    unfold modify_strip_centered in H.
    assert (Or : exists a, occupied_range (sp_layout p) = Some (a, a + 2)).
    { unfold occupied_width in Ow. destruct (occupied_range (sp_layout p)) as [(a, b)|]; [|change (0 = 2) in Ow; lra]. change (b - a = 2) in Ow. exists a. do 2 f_equal. lra. }
    destruct Or as (a & Or). rewrite Or in H. rewrite Ow in H. unfold modify_strip in H. apply rbind_ok in H as (m & _ & H). apply rbind_ok in H as (b & Eb & H).
    apply ProblemThmProofs.replace_id in H as (_ & H). cbn [sp_layout layout_new ly_bin] in H. unfold strip_bbox. rewrite H.
    rewrite (strip_box M _ _ _ _ Eb); [|split]; cbn in *; unr; lra.
  Qed.
  Lemma front_example : exists (inst : spinst R) ops p0 (p : sp R (dtransf R)), spinst_new squares 10 = Ok inst /\ Forall (fun x => sound_item M (fst x)) squares /\
    sp_new inst 10 (Cfg 3 1) 0 = Ok p0 /\ schecked_run true (1/2) (p0, []) ops /\ rfold (sstep true (1/2)) ops (p0, []) = Ok (p, []) /\
    x_min (strip_bbox p) = 0 /\ y_min (strip_bbox p) = 0 /\ y_max (strip_bbox p) = 10 /\ cfg_cells (Cfg 3 1) <> 0%nat /\ sp_new inst (strip_width p) (Cfg 3 1) 0 = Ok p0 /\
    length (placed (sp_layout p)) = 3%nat.
  Proof.
    destruct strip_start as (inst & ops & p0 & p & Hn & Sd & Con & E0 & C & Rn & T & Pm & X1 & X2). pose proof T as (_ & _ & _ & _ & Y1 & Y2).
    assert (Eh : si_height inst = 10) by (unfold spinst_new in Hn; cbn in Hn; injection Hn as <-; auto). rewrite Eh in Y2.
    exists inst, ops, p0, p. do 8 (split; [assumption|]). split; [discriminate|]. split; [|rewrite (Permutation_length Pm); reflexivity].
    change (strip_width p) with (x_max (strip_bbox p) - x_min (strip_bbox p)). rewrite X1, X2, Rminus_0_r. exact E0.
  Qed.
  (** the cut strip of width 3 does not begin at 0: filled again, the squares stick out *)
  Lemma replay_example : exists (inst : spinst R) ops p0 p h p', spinst_new squares 10 = Ok inst /\ Forall (fun x => sound_item M (fst x)) squares /\
    sp_new inst 10 (Cfg 3 1) 0 = Ok p0 /\ schecked_run true (1/2) (p0, []) ops /\ rfold (sstep true (1/2)) ops (p0, []) = Ok (p, h) /\
    packed squares (ly_bin (sp_layout p)) (placed (sp_layout p)) /\ replay p (Cfg 3 1) 0 = Ok p' /\
    strip_width p' = strip_width p /\ Permutation (placed (sp_layout p')) (placed (sp_layout p)) /\ ~ packed squares (ly_bin (sp_layout p')) (placed (sp_layout p')).
  Proof.
    destruct strip_start as (inst & ops & p0 & p & Hn & Sd & Con & E0 & C & Rn & T & Pm & X1 & X2). pose proof (sinst_ids _ _ _ Hn) as Ids.
    assert (Fi : fine_items squares) by (eapply Forall_impl; [|exact Sd]; intros z Hz; exact (so_shape _ _ Hz)).
    assert (Ei : si_items inst = squares /\ si_height inst = 10) by (unfold spinst_new in Hn; cbn in Hn; injection Hn as <-; auto). destruct Ei as (Ei & Eh).
    assert (Snd : Forall (fun x => sound_item M (fst x)) (si_items inst)) by (rewrite Ei; exact Sd).
    assert (Con' : strips_constructible (Cfg 3 1) (si_height inst)) by (rewrite Eh; exact Con). assert (Hh : 0 < si_height inst) by (rewrite Eh; lra).
    assert (Nc : cfg_cells (Cfg 3 1) <> 0%nat) by discriminate.
    assert (Np : placed (sp_layout p) <> []) by (intros Z; rewrite Z in Pm; apply Permutation_nil in Pm; discriminate).
    destruct (fit_total M LinSearch_ok inst Ids Snd (Cfg 3 1)) with (tol := 1/2) (p := p) (ptr := 5%nat) as (p1 & E1 & T1); try assumption; try lra.
    assert (E1' : fit_strip (1/2) p 5 = Ok p1) by exact E1.
    assert (C1 : schecked_run true (1/2) (p0, []) (ops ++ [SFit 5])).
    { apply (schecked_app M); [exact C|]. intros s' _. cbn [schecked_run]. split; [exact Logic.I|]. destruct (sstep true (1/2) s' (SFit 5)); exact Logic.I. }
    assert (R1 : rfold (sstep true (1/2)) (ops ++ [SFit 5]) (p0, []) = Ok (p1, [])) by (rewrite rfold_app, Rn; cbn [rbind rfold sstep]; rewrite E1'; reflexivity).
    pose proof T as (Q & H & _). pose proof T1 as (Q1 & _ & _ & _ & Y1 & Y2). rewrite Eh in Y2.
    assert (Kp : Permutation (placed (sp_layout p1)) (placed (sp_layout p))).
    { exact (fit_keeps LinSearch_ok (sym_R M) inst [] (1/2) p p1 5 Ids (q_smi _ _ _ Q) (q_inv _ _ _ Q) E1'). }
    assert (W : x_max (strip_bbox p1) - x_min (strip_bbox p1) = 3).
    { replace 3 with (2 * (1 + 1/2)) by lra.
      assert (Ow : occupied_width (sp_layout p) = 2).
      { apply column_width.
        - intros v Hv. pose proof H as (L & _ & _ & Kn & _). rewrite Forall_forall in Kn. pose proof (Kn v Hv) as Kv. rewrite Ei in L, Kv.
          destruct (known_facts M squares Sd (sp_layout p) v L Hv Kv) as (it & q & Nv & Ev). rewrite Ev.
          assert (Iv : In (pi_item v, pi_dt v) column) by (apply (Permutation_in _ Pm); unfold placed; apply in_map_iff; exists v; auto).
          assert (Bv : forall y, x_min (p_bbox (tr_poly (compose (at_ 3 y)) (it_shape (sq_item 2)))) = 3 /\ x_max (p_bbox (tr_poly (compose (at_ 3 y)) (it_shape (sq_item 2)))) = 5).
          { intros y. assert (Eq : p_bbox (tr_poly (compose (at_ 3 y)) (it_shape (sq_item 2))) = bbox_of_points (p_pts (tr_poly (compose (at_ 3 y)) (it_shape (sq_item 2))))) by reflexivity.
            rewrite Eq. assert (Tm : p_pts (tr_poly (compose (at_ 3 y)) (it_shape (sq_item 2))) = p_pts (rbox 3 y (3 + 2) (y + 2) 1)) by exact (two_moved M 3 y). rewrite Tm.
            cbn. unr. unfold Rmin, Rmax. split; repeat (destruct (Rle_dec _ _) as [?K|?K]; try lra). }
          destruct Iv as [Z|[Z|[Z|[]]]]; injection Z as Zi Zd; rewrite <- Zi in Nv; cbn in Nv; injection Nv as <- <-; rewrite <- Zd; apply Bv.
        - intros Z. apply Np. unfold placed. rewrite Z. reflexivity. }
      pose proof T as (_ & _ & _ & _ & Z1 & Z2). apply (cut_width p p1 5); [rewrite Z1, Z2, Eh; lra|exact Ow|exact E1']. }
    destruct (new_total M LinSearch_ok inst (Cfg 3 1) Nc Con' Hh 3 0) as (q0 & Eq & _); [lra|].
    assert (Eq' : sp_new inst (strip_width p1) (Cfg 3 1) 0 = Ok q0) by (change (strip_width p1) with (x_max (strip_bbox p1) - x_min (strip_bbox p1)); rewrite W; exact Eq).
    destruct (replay_iff M LinSearch_ok _ _ _ _ _ _ _ _ _ _ _ _ _ _ _ Hn Sd E0 C1 R1 Y1 Y2 Nc Eq') as (p' & Er & P & B & K).
    exists inst, (ops ++ [SFit 5]), p0, p1, [], p'. do 5 (split; [assumption|]). split; [rewrite <- Ei; exact (q_packed _ _ _ Q1)|]. split; [exact Er|].
    split.
    { change (x_max (strip_bbox p') - x_min (strip_bbox p') = x_max (strip_bbox p1) - x_min (strip_bbox p1)). rewrite W in *.
      assert (Z1 := proj2 (B 0 0)). assert (Z2 := proj2 (B 3 0)). unfold in_rect in *. cbn [px py] in *.
      assert (Z3 := proj1 (B (x_min (strip_bbox p')) 0)). assert (Z4 := proj1 (B (x_max (strip_bbox p')) 0)). lra. } split; [exact P|].
    intros Z. pose proof (proj1 K Z) as Y. clear Z. rename Y into Z. assert (I1 : In (0%nat, at_ 3 1) (placed (sp_layout p1))) by (apply (Permutation_in _ (Permutation_sym Kp)), (Permutation_in _ (Permutation_sym Pm)); left; reflexivity).
    specialize (Z _ (Pt 4 2) I1). rewrite W in Z. assert (Cv : covers squares (0%nat, at_ 3 1) (Pt 4 2)) by (apply (covers_square M); cbn; lra). specialize (Z Cv). cbn in Z. lra.
  Qed.
End E.
