(** A bin with a wall: the boundary fill starts on the wrong side of it and the cells
    next to the pole are never reached. *)
From Coq Require Import List Bool Arith Lia Permutation Sorted.
From Verif Require Import Base Num GeoModel HazardModel QTModel TransfModel HpgModel CdeModel HazVecProofs QTProofs BaseProofs CdeSpec CdeOpsProofs CdeHistProofs Instances GeoSpec ParityProofs
  GeoPrimProofs PlaceSpec HpgSpec HpgGridProofs HpgFillProofs HpgCellProofs HpgRegProofs HpgHistProofs HpgGenProofs HpgThmProofs HpgFullProofs HpgTidyProofs HpgRectProofs HpgThinProofs
  RegionProofs PlaceExampleProofs CdeGeoProofs GeoThmProofs.
From Coq Require Import Reals Lra.
From Verif Require Import GeoModel HazardModel QTModel TransfModel HpgModel CdeModel CdeSpec GeoSpec PlaceSpec HpgSpec.
Import ListNotations.
Local Open Scope R_scope.
#[local] Existing Instance NatEqD.
#[local] Existing Instance LinSearch.

(** *** rectangles *)
Lemma rbox_border : forall a b c d k q, on_border (p_pts (rbox a b c d k)) q -> px q = a \/ px q = c \/ py q = b \/ py q = d.
Proof.
  intros a b c d k q (e & He & t & Ht & ->). simpl in He.
  repeat (destruct He as [<-|He]; [unfold at_t; cbn [px py es ee]; (left; lra) || (right; left; lra) || (right; right; left; lra) || (right; right; right; lra)|]). destruct He.
Qed.
Lemma edist_x : forall p q, Rabs (px p - px q) <= edist p q.
Proof.
  intros p q. pose proof (edist_sq p q) as S2. pose proof (edist_nonneg p q). pose proof (pow2_ge_0 (py p - py q)). set (dx := px p - px q) in *. set (e := edist p q) in *. apply Rabs_le. split.
  - destruct (Rle_lt_dec (- e) dx); [assumption|]. exfalso. assert (e * e < dx * dx) by nra. nra.
  - destruct (Rle_lt_dec dx e); [assumption|]. exfalso. assert (e * e < dx * dx) by nra. nra.
Qed.
Lemma edist_y : forall p q, Rabs (py p - py q) <= edist p q.
Proof.
  intros p q. pose proof (edist_sq p q) as S2. pose proof (edist_nonneg p q). pose proof (pow2_ge_0 (px p - px q)). set (dx := py p - py q) in *. set (e := edist p q) in *. apply Rabs_le. split.
  - destruct (Rle_lt_dec (- e) dx); [assumption|]. exfalso. assert (e * e < dx * dx) by nra. nra.
  - destruct (Rle_lt_dec dx e); [assumption|]. exfalso. assert (e * e < dx * dx) by nra. nra.
Qed.
Lemma Rabs_out : forall x, x <= Rabs x /\ - x <= Rabs x.
Proof. intros x. pose proof (Rle_abs x). pose proof (Rle_abs (- x)). rewrite Rabs_Ropp in *. lra. Qed.

(** *** the cells of a new grid are among the generated squares *)
Section Cells.
  Context {D : Type} {ED : EqD D} {BS : BSearch}.
  Variable M : R.
  #[local] Instance NMh : Num R := RNumT Reqb M.
  Lemma put_cells : forall {T} rows cols (els : list (T * point R)) cells out, rfold (grid_put rows cols) els cells = Ok out ->
    forall c, In (Some c) out -> In (Some c) cells \/ In c (map fst els).
  Proof.
    intros T rows cols els. induction els as [|e els IH]; intros cells out E c Hc; cbn [rfold] in E; [injection E as <-; left; exact Hc|].
    apply rbind_ok in E as (cs & E1 & E). destruct (IH cs out E c Hc) as [H|H]; [|right; right; exact H].
    unfold grid_put in E1. destruct (bs (py (snd e)) rows); [|discriminate]. destruct (bs (px (snd e)) cols); [|discriminate].
    apply rbind_ok in E1 as (n & _ & E1). destruct (Nat.ltb n (length cells)); [|discriminate]. injection E1 as <-.
    apply In_nth_error in H as (m & Hm). destruct (Nat.eq_dec n m) as [<-|Ne].
    - destruct (Nat.lt_ge_cases n (length cells)) as [L|L].
      + rewrite vset_eq in Hm by exact L. injection Hm as <-. right. left. reflexivity.
      + assert (nth_error (vset n (Some (fst e)) cells) n = None) as K by (apply nth_error_None; rewrite vset_length; lia). congruence.
    - rewrite vset_neq in Hm by exact Ne. left. eapply nth_error_In. exact Hm.
  Qed.
  Lemma hpg_new_cells : forall bb (sts : list (hazard R D)) n g rects, hpg_new bb sts n = Ok g ->
    generate bb (filter (fun h => ent_universal (h_ent h)) sts) n = Ok rects -> every_cell (fun c => In (c_bbox' c) rects) (hg_grid g).
  Proof.
    intros bb sts n g rects E Eg c Hc. unfold hpg_new in E. destruct n as [|n]; [discriminate|]. rewrite Eg in E. cbn [rbind] in E.
    apply rbind_ok in E as (r0 & _ & E). apply rbind_ok in E as (els & Eels & E). apply rbind_ok in E as (gr & Egr & E). injection E as <-. cbn [hg_grid] in Hc.
    unfold grid_new in Egr. cbv zeta in Egr. apply rbind_ok in Egr as (cells & Ec & Egr). injection Egr as <-. cbn [g_cells] in Hc.
    destruct (put_cells _ _ _ _ _ Ec c Hc) as [K|K]; [apply repeat_spec in K; discriminate|].
    clear -Eels K. revert els Eels K. induction rects as [|r rects IH]; intros els E K; cbn [rmapM] in E; [injection E as <-; destruct K|].
    apply rbind_ok in E as (y & Ey & E). apply rbind_ok in E as (ys & Eys & E). injection E as <-. destruct K as [<-|K]; [left|right; eapply IH; eassumption].
    apply rbind_ok in Ey as (c & Ec & Ey). injection Ey as <-. cbn [fst]. unfold cell_new in Ec. apply rbind_ok in Ec as ([s q] & _ & Ec). injection Ec as <-. reflexivity.
  Qed.
  Lemma first_hit : forall bb (hs : list (hazard R D)) n out, flt f0 (r_area bb) = true -> gen_attempt bb hs n f1 = Ok out -> length out = n -> generate bb hs n = Ok out.
  Proof.
    intros bb hs n out Ar Ea L. unfold generate. rewrite Ar. change MAX_ITERATIONS with (S 24). generalize 24%nat as left. intros left. cbn [gen_loop].
    rewrite Ea. cbn [rbind]. rewrite L, Nat.compare_refl. reflexivity.
  Qed.
End Cells.

(** *** the bin: a square of side [sqrt 74] with an upright hole, on a grid of 74 cells *)
Definition gs : R := sqrt 74.
Lemma gs_ok : gs * gs = 74 /\ 86 / 10 < gs < 861 / 100.
Proof.
  assert (E : gs * gs = 74) by (apply sqrt_sqrt; lra). assert (P : 0 < gs) by (apply sqrt_lt_R0; lra). split; [exact E|]. split; nra.
Qed.
Definition gp_bin : poly R := rbox 0 0 gs gs (gs / 2).
Definition gp_hole : poly R := rbox (23/4) (1/20) (29/4) (171/20) (1/2).
Definition gp_item : poly R := rbox (74/10) 4 (84/10) 5 (1/2).
Definition gp_bb : rect R := Rc 0 0 gs gs.
Definition gp_ext : hazard R nat := Hz BinExterior (Arc 0 gp_bin) true.
Definition gp_wall : hazard R nat := Hz (BinHole 0) (Arc 1 gp_hole) true.
Definition gp_st : list (hazard R nat) := [gp_ext; gp_wall].
Definition gp_haz : hazard R nat := Hz (PlacedItem 1 0%nat) (Arc 2 gp_item) true.
Definition gp_ops : list (op R nat) := [OReg gp_haz].

Lemma gp_proper : proper gp_bb. Proof. pose proof gs_ok. split; cbn; lra. Qed.
Lemma gp_static : Forall (@static_hazard nat) gp_st.
Proof.
  pose proof gs_ok. constructor; [|constructor; [|constructor]].
  - split; [apply good_sound, rbox_good; lra|]. split; [discriminate|exact Logic.I].
  - split; [apply good_sound, rbox_good; lra|]. split; [discriminate|exact Logic.I].
Qed.
Lemma gp_statics : sound_statics gp_st.
Proof. pose proof gs_ok. constructor; [|constructor; [|constructor]]; apply good_sound, rbox_good; lra. Qed.
Lemma gp_valid : valid (N := RNum) gp_st gp_ops.
Proof.
  pose proof gs_ok as (_ & Gs).
  assert (G : forall a b c d k, a < c -> b < d -> good_poly (rbox a b c d k)) by (intros; apply good_wf, rbox_good; assumption).
  split.
  - split; [constructor; [apply G; lra|constructor; [apply G; lra|constructor]]|]. simpl. constructor; [intros [K|[]]; discriminate|]. constructor; [intros []|constructor].
  - exists (fun e => match e with BinExterior => (gp_bin, true) | BinHole _ => (gp_hole, true) | _ => (gp_item, true) end).
    simpl. split; [|exact Logic.I]. split; [apply G; lra|]. split; [reflexivity|]. split; [intros [K|[K|[]]]; discriminate|intros []].
Qed.
Lemma gp_grid_ops : Forall grid_op gp_ops.
Proof.
  constructor; [|constructor]. split; [reflexivity|]. split; [reflexivity|]. split; [reflexivity|]. split; [|cbn; lra].
  eexists. split; [reflexivity|]. cbn [s_poles s_bcircle]. split; [discriminate|]. split; [intros k [<-|[]]; cbn; lra|]. split; [cbn; lra|]. intros k p [<-|[]] H. exact H.
Qed.
Lemma gp_centred : Forall (centred_op gp_bb) gp_ops.
Proof. pose proof gs_ok as (_ & Gs). constructor; [|constructor]. intros k [<-|[]]. split; cbn; lra. Qed.
Lemma gp_framed : framed gp_bb (facts gp_st gp_ops).
Proof.
  split; [exact gp_proper|]. intros f [<-|[<-|[<-|[]]]] H; try discriminate. unfold f_poly, inflate_to_square, gp_bb. simpl. unr.
  rdestr (gs - 0) (gs - 0); [lra|]. f_equal; lra.
Qed.
Lemma gp_free : forall p, 0 < px p < gs -> 0 < py p < gs -> ~ blocked (fact_of gp_ext) p.
Proof.
  intros p X Y [Bl|Bl]; destruct (rbox_inside 0 0 gs gs (gs / 2) p X Y) as [N Eo]; [exact (N Bl)|].
  unfold f_poly in Bl. cbn [fst snd fact_of gp_ext h_shape a_obj] in Bl. unfold gp_bin in Bl. congruence.
Qed.
Lemma gp_clear : forall p, blocked (fact_of gp_wall) p -> 23/4 <= px p <= 29/4 /\ 1/20 <= py p <= 171/20.
Proof. intros p Bl. assert (R : region (p_pts gp_hole) p) by exact Bl. apply rbox_region in R; [|lra|lra]. exact R. Qed.
Lemma gp_feasible : feasible gp_item [] (facts gp_st []).
Proof.
  pose proof gs_ok as (_ & Gs). intros f [<-|[<-|[]]] _ _ p Rp; apply rbox_region in Rp as (X & Y); try lra; cbn [x_min x_max y_min y_max] in X, Y; intros Bl.
  - apply (gp_free p); [lra|lra|exact Bl].
  - apply gp_clear in Bl. lra.
Qed.

Section Gap.
  Variable M : R.
  Hypothesis HM : 1 <= M.
  #[local] Instance NMp : Num R := RNumT Reqb M.

  Lemma hd1 : 707 / 1000 < half_diag 1 < 708 / 1000.
  Proof. destruct (half_diag_sq 1 ltac:(lra)) as (H0 & H2). split; nra. Qed.
  (** the cell in column [i] and row [j] lies in the wall *)
  Definition walled (i j : nat) : bool := Nat.eqb i 6 && (Nat.leb 1 j && Nat.leb j 7).
  Lemma gp_dim : gen_dim gp_bb 74 f1 = 1.
  Proof.
    pose proof gs_ok as (G & _). unfold gen_dim, r_area, r_width, r_height, gp_bb. cbn [fsqrt fmul fdiv f1 fofN fsub NMp RNumT x_min x_max y_min y_max].
    rewrite !Rminus_0_r, G. replace (INR 74) with 74 by (rewrite INR_IZR_INZ; reflexivity). replace (74 / 74) with 1 by lra. rewrite sqrt_1. lra.
  Qed.
  Lemma gp_cen : forall i j, @r_centroid R NMp (square gp_bb 1 i j) = Pt (INR i + / 2) (INR j + / 2).
  Proof.
    intros i j. change (@r_centroid R NMp (square gp_bb 1 i j)) with (@r_centroid R (NMg M) (square gp_bb 1 i j)). rewrite (square_centroid M). cbn [gp_bb x_min y_min]. f_equal; lra.
  Qed.
  Lemma idx_le : forall i, (i < 9)%nat -> 0 <= INR i <= 8.
  Proof. intros i H. split; [apply pos_INR|]. assert (H' : (i <= 8)%nat) by lia. apply le_INR in H'. rewrite (INR_IZR_INZ 8) in H'. exact H'. Qed.
  Lemma gp_kept : forall i j, (i < 9)%nat -> (j < 9)%nat -> (kept M gp_bb gp_st 1 i j <-> walled i j = false).
  Proof.
    intros i j Hi Hj. pose proof gs_ok as (_ & Gs). pose proof hd1 as Hd. pose proof (idx_le i Hi) as Bi. pose proof (idx_le j Hj) as Bj.
    assert (Ce := gp_cen i j). split.
    - intros (d & E & L). destruct (walled i j) eqn:W; [|reflexivity]. exfalso. unfold walled in W. apply andb_true_iff in W as (W1 & W). apply andb_true_iff in W as (W2 & W3).
      apply Nat.eqb_eq in W1. apply Nat.leb_le in W2. apply Nat.leb_le in W3. subst i.
      assert (Ce' : @r_centroid R (NMg M) (square gp_bb 1 6 j) = Pt (13 / 2) (INR j + / 2)) by (change (@r_centroid R NMp (square gp_bb 1 6 j) = Pt (13 / 2) (INR j + / 2)); rewrite Ce; rewrite (INR_IZR_INZ 6); f_equal; cbn; lra).
      rewrite Ce' in E. clear Ce Ce'. set (p := Pt (13 / 2) (INR j + / 2)) in *.
      apply le_INR in W2. apply le_INR in W3. rewrite (INR_IZR_INZ 7) in W3. change (INR 1) with 1 in W2. cbn in W3.
      assert (Ip : interior (p_pts gp_hole) p) by (apply rbox_inside; cbn [p px py]; lra).
      destruct (Forall_inv gp_static) as (S1 & N1 & _). destruct (Forall_inv (Forall_inv_tail gp_static)) as (S2 & N2 & _).
      destruct (p_dist_border_ok _ p S1 N1) as (pos1 & x1 & E1 & _). destruct (p_dist_border_ok _ p S2 N2) as (pos2 & x2 & E2 & [(q & Bq & Dq) _] & Po).
      assert (pos2 = Interior) as ->.
      { destruct Po as [B|B]; [exfalso; apply (proj1 Ip); exact B|]. apply B. exact (proj2 Ip). }
      assert (X2 : 3 / 4 <= x2).
      { rewrite <- Dq. pose proof (edist_x p q) as Ex. pose proof (edist_y p q) as Ey. pose proof (Rabs_out (px p - px q)). pose proof (Rabs_out (py p - py q)). cbn [p px py] in *.
        apply rbox_border in Bq as [B|[B|[B|B]]]; lra. }
      unfold distance_to_hazard in E. cbn [rmapM gp_st] in E.
      assert (E1' : @p_dist_border R (NMg M) (a_obj (h_shape gp_ext)) p = Ok (pos1, x1)) by exact E1. assert (E2' : @p_dist_border R (NMg M) (a_obj (h_shape gp_wall)) p = Ok (Interior, x2)) by exact E2.
      rewrite E1', E2' in E. cbn [rbind] in E. injection E as E.
      set (y1 := if geopos_eqb pos1 (ent_position (h_ent gp_ext)) then fneg x1 else x1) in *.
      assert (Ne : [y1; - x2] <> []) by discriminate. destruct (fmin_list_ok M [y1; - x2] Ne) as (m & Em & _ & Lm). specialize (Lm (- x2) (or_intror (or_introl eq_refl))).
      assert (Em' : match @fmin_list R (NMg M) [y1; - x2] with Some z => z | None => - M end = m) by (assert (Q : @fmin_list R (NMg M) [y1; - x2] = Some m) by exact Em; rewrite Q; reflexivity).
      assert (d = m) by (rewrite <- Em'; symmetry; exact E). lra.
    - intros W. assert (Ne : gp_st <> []) by discriminate. destruct (dist_total M (r_centroid (square gp_bb 1 i j)) gp_st gp_static Ne) as (d & E & h & x & Hh & Q).
      exists d. split; [exact E|]. destruct Q as [(-> & Q)|(-> & Q)]; [lra|]. destruct (Rlt_le_dec x (half_diag 1)) as [L|L]; [lra|]. exfalso.
      rewrite Ce in Q. destruct Hh as [<-|[<-|[]]].
      + apply (gp_free (Pt (INR i + / 2) (INR j + / 2))); [cbn [px]; lra|cbn [py]; lra|]. apply Q. rewrite edist_refl. lra.
      + destruct (Nat.eq_dec i 6) as [ -> |Ni].
        * assert (J : j = 0%nat \/ j = 8%nat).
          { unfold walled in W. rewrite Nat.eqb_refl in W. cbn [andb] in W. apply andb_false_iff in W as [W|W]; apply Nat.leb_gt in W; lia. }
          assert (K : forall y, Rabs (INR j + / 2 - y) <= 7 / 10 -> 1 / 20 <= y <= 171 / 20).
          { intros y Hy. assert (B : blocked (fact_of gp_wall) (Pt (INR 6 + / 2) y)); [|apply gp_clear in B; cbn [px py] in B; lra].
            apply Q. apply Rle_trans with (7 / 10); [|lra]. apply edist_le; [lra|]. cbn [px py]. apply Rabs_le_inv in Hy. nra. }
          destruct J as [ -> | -> ].
          -- specialize (K 0). rewrite Rabs_right in K; cbn in K; lra.
          -- rewrite (INR_IZR_INZ 8) in K. cbn in K. specialize (K 9). rewrite Rabs_left in K; lra.
        * assert (B : blocked (fact_of gp_wall) (Pt (INR i + / 2) (INR j + / 2))) by (apply Q; rewrite edist_refl; lra).
          apply gp_clear in B as (B & _). cbn [px] in B.
          assert (C : (i <= 5)%nat \/ (7 <= i)%nat) by lia. destruct C as [C|C]; apply le_INR in C; [rewrite (INR_IZR_INZ 5) in C|rewrite (INR_IZR_INZ 7) in C]; cbn in C; lra.
  Qed.

  Definition gp_idx : list (nat * nat) := filter (fun ij => negb (walled (fst ij) (snd ij))) (list_prod (seq 0 9) (seq 0 9)).
  Lemma gp_in9 : forall i, INR i < gs / 1 <-> (i < 9)%nat.
  Proof.
    intros i. pose proof gs_ok as (_ & Gs). split; intros H.
    - destruct (Nat.lt_ge_cases i 9) as [L|L]; [exact L|]. apply le_INR in L. rewrite (INR_IZR_INZ 9) in L. cbn in L. lra.
    - apply idx_le in H. lra.
  Qed.
  Lemma gp_generate : exists out, generate gp_bb gp_st 74 = Ok out /\ out <> [] /\
    forall r, In r out <-> exists i j, (i < 9)%nat /\ (j < 9)%nat /\ r = square gp_bb 1 i j /\ walled i j = false.
  Proof.
    assert (Ne : gp_st <> []) by discriminate. assert (D1 := gp_dim). assert (Dz : @gen_dim R (NMw M) gp_bb 74 f1 <> 0) by (change (@gen_dim R NMp gp_bb 74 f1 <> 0); rewrite D1; lra).
    destruct (attempt_total M gp_bb gp_st 74 f1 Dz gp_static Ne) as (out & Ea). exists out.
    destruct (gen_attempt_ok M gp_bb gp_st 74 f1 out Ea) as (_ & Hr & ND & _). change (@gen_dim R (NMg M) gp_bb 74 f1) with (@gen_dim R NMp gp_bb 74 f1) in Hr. rewrite D1 in Hr.
    assert (Wd : @r_width R (NMg M) gp_bb = gs /\ @r_height R (NMg M) gp_bb = gs) by (split; cbn; lra). destruct Wd as (Wd & Hg). rewrite Wd, Hg in Hr.
    assert (Hr' : forall r, In r out <-> exists i j, (i < 9)%nat /\ (j < 9)%nat /\ r = square gp_bb 1 i j /\ walled i j = false).
    { intros r. rewrite Hr. split; intros (i & j & A & B & C & K); exists i, j.
      - apply gp_in9 in A, B. split; [exact A|]. split; [exact B|]. split; [exact C|]. apply gp_kept; assumption.
      - split; [apply gp_in9; exact A|]. split; [apply gp_in9; exact B|]. split; [exact C|]. apply gp_kept; assumption. }
    assert (L : length out = 74%nat).
    { transitivity (length (map (fun ij => square gp_bb 1 (fst ij) (snd ij)) gp_idx)); [|rewrite map_length; reflexivity].
      apply Permutation_length. apply NoDup_Permutation; [exact ND| |].
      - apply FinFun.Injective_map_NoDup.
        + intros [a b] [a' b'] Q. cbn [fst snd] in Q. unfold square in Q. injection Q as Q1 Q2 _ _. f_equal; apply INR_eq; lra.
        + apply NoDup_filter. assert (P : forall (l l' : list nat), NoDup l -> NoDup l' -> NoDup (list_prod l l')).
          { intros l l' Nl Nl'. induction Nl as [|x l Hx Nl IH]; [constructor|]. cbn [list_prod]. apply NoDup_app3; [apply FinFun.Injective_map_NoDup; [intros u v Q; congruence|exact Nl']|exact IH|].
            intros [u v] A B. apply in_map_iff in A as (w & Q & _). injection Q as <- _. apply in_prod_iff in B as (B & _). contradiction. }
          apply P; apply seq_NoDup.
      - intros r. rewrite Hr', in_map_iff. split.
        + intros (i & j & A & B & -> & W). exists (i, j). split; [reflexivity|]. apply filter_In. split; [apply in_prod; apply in_seq; lia|]. cbn [fst snd]. rewrite W. reflexivity.
        + intros ([i j] & <- & H). apply filter_In in H as (H & W). apply in_prod_iff in H as (A & B). apply in_seq in A, B. exists i, j. cbn [fst snd] in *.
          split; [lia|]. split; [lia|]. split; [reflexivity|]. destruct (walled i j); [discriminate|reflexivity]. }
    split; [|split; [intros Z; rewrite Z in L; discriminate|exact Hr']].
    assert (Ar : flt f0 (r_area gp_bb) = true).
    { pose proof gs_ok as (G & _). unfold r_area, r_width, r_height, gp_bb. cbn [x_min x_max y_min y_max fsub fmul flt f0 NMp RNumT]. apply Rltb_spec. rewrite !Rminus_0_r, G. lra. }
    apply (first_hit M); [exact Ar|exact Ea|exact L].
  Qed.

  (** the grid *)
  Record gap_grid (g : hpg R nat) : Prop := {
    gg_fresh : fresh M gp_bb gp_st 1 g;
    gg_rows : g_rows (hg_grid g) = map (mid 0 1) (seq 0 9); gg_cols : g_cols (hg_grid g) = map (mid 0 1) (seq 0 9);
    gg_cell : forall i j, (i < 9)%nat -> (j < 9)%nat -> walled i j = false ->
      exists c, cell_at (hg_grid g) (j * 9 + i) = Some c /\ c_cen c = Pt (INR i + / 2) (INR j + / 2);
    gg_none : forall i j, (i < 9)%nat -> (j < 9)%nat -> walled i j = true -> cell_at (hg_grid g) (j * 9 + i) = None }.
  Lemma gap_hpg : exists g, hpg_new gp_bb gp_st 74 = Ok g /\ gap_grid g.
  Proof.
    destruct gp_generate as (out & Eg & No & Hr).
    assert (Nn : 74%nat <> 0%nat) by discriminate.
    destruct (hpg_new_total LinSearch_ok M gp_bb gp_st 74 out gp_static Nn gp_proper Eg No) as (g & E). exists g. split; [exact E|].
    destruct (hpg_new_ok LinSearch_ok M gp_bb gp_st 74 g gp_proper gp_statics E) as (dim & F).
    assert (Mem := hpg_new_cells M gp_bb gp_st 74 g out E Eg).
    assert (dim = 1) as ->.
    { destruct out as [|r out]; [congruence|]. destruct (proj1 (Hr r) (or_introl eq_refl)) as (i & j & _ & _ & Er & _).
      pose proof E as E'. unfold hpg_new in E'. assert (Eg' : @generate R (NMq M) nat gp_bb (filter (fun h => ent_universal (h_ent h)) gp_st) 74 = Ok (r :: out)) by exact Eg.
      rewrite Eg' in E'. cbn [rbind hd_error expect] in E'. apply rbind_ok in E' as (els & _ & E'). apply rbind_ok in E' as (gr & _ & E'). injection E' as <-.
      pose proof (fr_rad _ _ _ _ _ F) as Rd. cbn [hg_rad] in Rd.
      assert (Hd1 : half_diag dim = half_diag 1).
      { rewrite <- Rd. rewrite <- (square_diameter M gp_bb 1 i j) by lra. rewrite Er. unfold f2. cbn [fdiv fadd f1 NMq RNumT]. f_equal. }
      destruct (half_diag_sq dim (fr_dim _ _ _ _ _ F)) as (A1 & A2). destruct (half_diag_sq 1 ltac:(lra)) as (B1 & B2).
      rewrite Hd1 in A2. pose proof (fr_dim _ _ _ _ _ F). assert (dim * dim = 1 * 1) by lra. nra. }
    pose proof (fr_wf _ _ _ _ _ F) as [Sr Sc R0 C0 Ln]. set (gr := hg_grid g) in *.
    assert (Wd : @r_width R (NMg M) gp_bb = gs /\ @r_height R (NMg M) gp_bb = gs) by (split; cbn; lra). destruct Wd as (Wd & Hg).
    assert (CenS : forall i j n c, cell_at gr n = Some c -> c_bbox' c = square gp_bb 1 i j -> c_cen c = Pt (INR i + / 2) (INR j + / 2)).
    { intros i j n c En Eb. destruct (fr_cells _ _ _ _ _ F n c En) as (Sc' & _). rewrite (sc_cen _ _ _ Sc'), Eb. unfold square. cbn [x_min x_max y_min y_max gp_bb]. f_equal; lra. }
    assert (Cell : forall i j, (i < 9)%nat -> (j < 9)%nat -> walled i j = false -> exists n c, cell_at gr n = Some c /\ c_cen c = Pt (INR i + / 2) (INR j + / 2)).
    { intros i j Hi Hj W. destruct (fr_square _ _ _ _ _ F i j) as [(c & Hc & Bc)|K].
      - rewrite Wd. apply gp_in9. exact Hi.
      - rewrite Hg. apply gp_in9. exact Hj.
      - apply In_nth_error in Hc as (n & Hn). exists n, c. assert (Cn : cell_at gr n = Some c) by (unfold cell_at, gr; rewrite Hn; reflexivity). split; [exact Cn|]. eapply CenS; eassumption.
      - exfalso. pose proof gs_ok as (_ & Gs). pose proof (idx_le i Hi) as Bi. pose proof (idx_le j Hj) as Bj.
        assert (Q : forall p, in_rect (square gp_bb 1 i j) p -> 0 < px p < gs -> 0 < py p < gs -> 23/4 <= px p <= 29/4 /\ 1/20 <= py p <= 171/20).
        { intros p Ip X Y. destruct (K p Ip) as (h & [<-|[<-|[]]] & _ & Bh); [exfalso; exact (gp_free p X Y Bh)|apply gp_clear; exact Bh]. }
        unfold in_rect, square, gp_bb in Q. cbn [x_min x_max y_min y_max] in Q.
        assert (Q1 := Q (Pt (INR i + / 2) (INR j + / 2))). cbn [px py] in Q1.
        destruct (Nat.eq_dec i 6) as [ -> |Ni].
        + assert (J : j = 0%nat \/ j = 8%nat).
          { unfold walled in W. rewrite Nat.eqb_refl in W. cbn [andb] in W. apply andb_false_iff in W as [W|W]; apply Nat.leb_gt in W; lia. }
          rewrite (INR_IZR_INZ 6) in *. cbn in Q, Bi. destruct J as [ -> | -> ].
          * assert (Q2 := Q (Pt (13/2) (1/100))). cbn in Q2. lra.
          * rewrite (INR_IZR_INZ 8) in *. assert (Q2 := Q (Pt (13/2) (858/100))). cbn in Q2. lra.
        + assert (C : (i <= 5)%nat \/ (7 <= i)%nat) by lia. destruct C as [C|C]; apply le_INR in C; [rewrite (INR_IZR_INZ 5) in C|rewrite (INR_IZR_INZ 7) in C]; cbn in C; lra. }
    assert (Ix : forall n c, cell_at gr n = Some c -> exists r cc x y, n = (r * n_cols gr + cc)%nat /\ nth_error (g_rows gr) r = Some y /\ nth_error (g_cols gr) cc = Some x /\ c_cen c = Pt x y).
    { intros n c En. assert (Ln' : (n < n_rows gr * n_cols gr)%nat).
      { rewrite <- Ln. apply nth_error_Some. unfold cell_at in En. intros Z. rewrite Z in En. discriminate. }
      assert (Cp : (0 < n_cols gr)%nat) by (unfold n_cols; destruct (g_cols gr); [congruence|cbn; lia]).
      assert (Dn := Nat.div_mod n (n_cols gr) ltac:(lia)). set (r := Nat.div n (n_cols gr)) in *. set (cc := Nat.modulo n (n_cols gr)) in *.
      assert (Hcc : (cc < n_cols gr)%nat) by (apply Nat.mod_upper_bound; lia). assert (Hrr : (r < n_rows gr)%nat) by (apply Nat.div_lt_upper_bound; lia).
      destruct (nth_error (g_rows gr) r) as [y|] eqn:Ey; [|apply nth_error_None in Ey; unfold n_rows in Hrr; lia].
      destruct (nth_error (g_cols gr) cc) as [x|] eqn:Exx; [|apply nth_error_None in Exx; unfold n_cols in Hcc; lia].
      exists r, cc, x, y. assert (En' : n = (r * n_cols gr + cc)%nat) by lia. split; [exact En'|]. split; [exact Ey|]. split; [exact Exx|].
      rewrite En' in En. apply (fr_at _ _ _ _ _ F r cc y x Ey Exx c En). }
    assert (Mi : forall i, mid 0 1 i = INR i + / 2) by (intros i; unfold mid; lra).
    assert (Er : g_rows gr = map (mid 0 1) (seq 0 9)).
    { apply ssorted_ext; [exact Sr|apply mids_sorted; lra|]. intros y. rewrite in_map_iff. split.
      - intros Hy. destruct (fr_rows _ _ _ _ _ F y Hy) as (j & Lj & ->). rewrite Hg in Lj. apply gp_in9 in Lj. exists j. split; [unfold mid; cbn [gp_bb y_min]; reflexivity|]. apply in_seq. lia.
      - intros (j & <- & Hj). apply in_seq in Hj. destruct (Cell 0%nat j ltac:(lia) ltac:(lia) eq_refl) as (n & c & En & Ec). destruct (Ix n c En) as (r & cc & x & y & _ & Ey & _ & Ec').
        rewrite Ec in Ec'. injection Ec' as _ Qy. rewrite Mi, Qy. eapply nth_error_In. exact Ey. }
    assert (Ecl : g_cols gr = map (mid 0 1) (seq 0 9)).
    { apply ssorted_ext; [exact Sc|apply mids_sorted; lra|]. intros y. rewrite in_map_iff. split.
      - intros Hy. destruct (fr_cols _ _ _ _ _ F y Hy) as (j & Lj & ->). rewrite Wd in Lj. apply gp_in9 in Lj. exists j. split; [unfold mid; cbn [gp_bb x_min]; reflexivity|]. apply in_seq. lia.
      - intros (i & <- & Hi). apply in_seq in Hi. destruct (Cell i 0%nat ltac:(lia) ltac:(lia)) as (n & c & En & Ec); [unfold walled; cbn [Nat.leb andb]; apply andb_false_r|].
        destruct (Ix n c En) as (r & cc & x & y & _ & _ & Exx & Ec').
        rewrite Ec in Ec'. injection Ec' as Qx _. rewrite Mi, Qx. eapply nth_error_In. exact Exx. }
    assert (Nc : n_cols gr = 9%nat) by (unfold n_cols; rewrite Ecl, map_length, seq_length; reflexivity).
    assert (Nr : n_rows gr = 9%nat) by (unfold n_rows; rewrite Er, map_length, seq_length; reflexivity).
    assert (Un : forall r, (r < 9)%nat -> forall y, nth_error (map (mid 0 1) (seq 0 9)) r = Some y -> y = INR r + / 2) by (intros r Hrr y Q; rewrite mids_nth in Q by exact Hrr; injection Q as <-; apply Mi).
    split; auto.
    - intros i j Hi Hj W. destruct (Cell i j Hi Hj W) as (n & c & En & Ec). exists c. split; [|exact Ec].
      destruct (Ix n c En) as (r & cc & x & y & -> & Ey & Exx & Ec'). rewrite Er in Ey. rewrite Ecl in Exx.
      assert (Lr : (r < 9)%nat) by (assert (K : nth_error (map (mid 0 1) (seq 0 9)) r <> None) by congruence; apply nth_error_Some in K; rewrite map_length, seq_length in K; exact K).
      assert (Lc : (cc < 9)%nat) by (assert (K : nth_error (map (mid 0 1) (seq 0 9)) cc <> None) by congruence; apply nth_error_Some in K; rewrite map_length, seq_length in K; exact K).
      apply Un in Ey; [|exact Lr]. apply Un in Exx; [|exact Lc]. rewrite Ec in Ec'. injection Ec' as Q1 Q2.
      assert (i = cc) as -> by (apply INR_eq; lra). assert (j = r) as -> by (apply INR_eq; lra). rewrite Nc in En. exact En.
    - intros i j Hi Hj W. destruct (cell_at (hg_grid g) (j * 9 + i)) as [c|] eqn:En; [|reflexivity]. exfalso. fold gr in En.
      assert (Ic : In (Some c) (g_cells gr)).
      { unfold cell_at in En. destruct (nth_error (g_cells gr) (j * 9 + i)) as [o|] eqn:Eo; [|discriminate]. subst o. eapply nth_error_In. exact Eo. }
      specialize (Mem c Ic). cbn beta in Mem. apply Hr in Mem as (i' & j' & Hi' & Hj' & Eb & W'). pose proof (CenS i' j' _ c En Eb) as Ec.
      rewrite <- Nc in En. assert (En' := fr_at _ _ _ _ _ F j i (mid 0 1 j) (mid 0 1 i)). fold gr in En'. rewrite Er, Ecl, !mids_nth in En' by assumption. specialize (En' eq_refl eq_refl c En).
      rewrite Ec, !Mi in En'. injection En' as Q1 Q2. assert (i' = i) as -> by (apply INR_eq; lra). assert (j' = j) as -> by (apply INR_eq; lra). congruence.
  Qed.

  Lemma queue_prefix : forall l b b', rfold bf_queue_neighbor l b = Ok b' -> exists r, bf_queue b' = bf_queue b ++ r.
  Proof.
    induction l as [|n l IH]; intros b b' E; cbn [rfold] in E; [injection E as <-; exists []; rewrite app_nil_r; reflexivity|].
    apply rbind_ok in E as (b1 & E1 & E). apply IH in E as (r & Er). rewrite Er. unfold bf_queue_neighbor in E1. apply rbind_ok in E1 as (s & _ & E1).
    destruct s; try (injection E1 as <-; eauto). apply rbind_ok in E1 as (st & _ & E1). injection E1 as <-. cbn [bf_queue]. rewrite <- app_assoc. eauto.
  Qed.
  (** the fill starts in the wall and goes on to the left of it *)
  Lemma gap_seed : forall (g : grid R (cell R nat)) v fuel b order b', n_rows g = 9%nat -> n_cols g = 9%nat -> v 42%nat = Exterior ->
    fill_start g (2, 6)%nat (5, 8)%nat = Ok b -> traverse (S (S fuel)) v g b = Ok (order, b') -> exists rest, order = 42%nat :: 32%nat :: rest.
  Proof.
    intros g v fuel b order b' Nr Nc V E1 E2.
    assert (E1' : fill_start g (2, 6)%nat (5, 8)%nat = Ok (BF (vset 42 Queued (repeat NotQueued 81)) (2, 6)%nat (5, 8)%nat [42%nat] 0 false)).
    { unfold fill_start, bf_init_queue, to_index. rewrite Nr, Nc. reflexivity. }
    rewrite E1' in E1. assert (Eb : b = BF (vset 42 Queued (repeat NotQueued 81)) (2, 6)%nat (5, 8)%nat [42%nat] 0 false) by congruence. subst b. cbn [traverse] in E2. unfold bf_pop at 1 in E2. cbn [bf_queue bf_state bf_rows bf_cols bf_nvis bf_seeded] in E2.
    assert (P1 : cs_update cs_visit (vset 42 Queued (repeat NotQueued 81)) 42 = Ok (vset 42 Visited (repeat NotQueued 81))) by reflexivity.
    rewrite P1 in E2. cbn [rbind] in E2. rewrite V in E2.
    set (b1 := BF (vset 42 Visited (repeat NotQueued 81)) (2, 6)%nat (5, 8)%nat [] 1 false) in *.
    apply rbind_ok in E2 as (b2 & P2 & E2).
    assert (Q : exists r, bf_queue b2 = 32%nat :: r).
    { unfold bf_report in P2. cbn [b1 bf_seeded bf_rows bf_cols] in P2. assert (T : to_row_col g 42 = Some (4, 6)%nat) by (unfold to_row_col; rewrite Nr, Nc; reflexivity).
      rewrite T in P2. cbn [expect rbind] in P2. change (in_range (2, 6)%nat 4 && in_range (5, 8)%nat 6)%bool with true in P2. cbn [andb] in P2.
      assert (G : exists l, get_neighbors g 42 = 32%nat :: l) by (unfold get_neighbors; rewrite Nr, Nc; eexists; reflexivity). destruct G as (l & G). rewrite G in P2. cbn [rfold] in P2.
      apply rbind_ok in P2 as (b2' & P2 & P3). unfold bf_queue_neighbor in P2. cbn [b1 bf_state] in P2.
      assert (Q : nth_error (vset 42 Visited (repeat NotQueued 81)) 32 = Some NotQueued) by reflexivity. rewrite Q in P2. cbn [expect rbind] in P2. apply rbind_ok in P2 as (st & _ & P2). injection P2 as <-.
      apply queue_prefix in P3 as (r & P3). exists r. rewrite P3. reflexivity. }
    destruct Q as (r & Q). unfold bf_pop at 1 in E2. rewrite Q in E2.
    apply rbind_ok in E2 as ([o b3] & E3 & E2). apply rbind_ok in E3 as ([o' b4] & E3 & E4). apply rbind_ok in E3 as (st & _ & E3). injection E3 as <- <-.
    apply rbind_ok in E4 as (b5 & _ & E4). apply rbind_ok in E4 as ([l' b6] & _ & E4). injection E4 as <- <-. injection E2 as <- <-. eauto.
  Qed.

  Definition gp_pole : rcircle := Ci (Pt ((74/10 + 84/10) / 2) ((4 + 5) / 2)) (1/2).
  Lemma gap_register : forall g g', gap_grid g -> hpg_register g gp_haz = Ok g' ->
    exists c c', cell_at (hg_grid g) 43 = Some c /\ cell_at (hg_grid g') 43 = Some c' /\ c_cen c' = Pt (15/2) (9/2) /\ 1 / 4 <= fst (c_uni c') /\ gap gp_pole (c_cen c') = 0.
  Proof.
    intros g g' [F Er Ecl Ce No] E. pose proof (fr_wf _ _ _ _ _ F) as W. pose proof (fr_rad _ _ _ _ _ F) as Rd. pose proof hd1 as Hd.
    set (gr := hg_grid g) in *.
    assert (Nc : n_cols gr = 9%nat) by (unfold n_cols; rewrite Ecl, map_length, seq_length; reflexivity).
    assert (Nr : n_rows gr = 9%nat) by (unfold n_rows; rewrite Er, map_length, seq_length; reflexivity).
    assert (Mi : forall i, mid 0 1 i = INR i + / 2) by (intros i; unfold mid; lra).
    unfold hpg_register in E. cbn [gp_haz h_shape a_obj p_surr gp_item rbox expect rbind s_poles] in E. apply rbind_ok in E as (b & Eb & E). apply rbind_ok in E as ([g1 b1] & E1 & E). injection E as <-. cbn [hg_grid].
    cbn [rfold] in E1. fold gp_pole in E1. apply rbind_ok in E1 as ([g2 b2] & E1 & E). injection E as -> ->. rewrite Rd in E1.
    assert (Lb : length (bf_state b) = (n_rows gr * n_cols gr)%nat).
    { destruct (bf_new_ok LinSearch_ok M gr (p_bbox gp_item) W) as (b0 & Eb0 & Lb0); [cbn; lra|cbn; lra|].
      assert (K : Ok b0 = Ok b) by (rewrite <- Eb0; exact Eb). injection K as ->. exact Lb0. }
    destruct (register_pole_grid LinSearch_ok M (half_diag 1) gp_haz gp_pole gr b W Lb eq_refl) as (g2 & b2 & order & rows & cols & E2 & _ & _ & _ & _ & Rr & Rc & (b3 & b4 & F1 & F2) & O1 & O2); [cbn; lra|lra|].
    assert (K : Ok (g2, b2) = Ok (g1, b1)) by (rewrite <- E2; exact E1). injection K as -> ->. clear E2 E1.
    (* the ranges *)
    rewrite Er in Rr. rewrite Ecl in Rc. cbn [gp_pole ccen crad px py] in Rr, Rc.
    assert (So : StronglySorted Rlt (map (mid 0 1) (seq 0 9))) by (apply mids_sorted; lra). assert (Ne : map (mid 0 1) (seq 0 9) <> []) by discriminate.
    assert (Nt : forall i, (i < 9)%nat -> nth_error (map (mid 0 1) (seq 0 9)) i = Some (INR i + / 2)) by (intros i Hi; rewrite mids_nth by exact Hi; rewrite Mi; reflexivity).
    assert (I2 : INR 2 = 2) by (rewrite INR_IZR_INZ; reflexivity). assert (I3 : INR 3 = 3) by (rewrite INR_IZR_INZ; reflexivity).
    assert (I5 : INR 5 = 5) by (rewrite INR_IZR_INZ; reflexivity). assert (I6 : INR 6 = 6) by (rewrite INR_IZR_INZ; reflexivity). assert (I8 : INR 8 = 8) by (rewrite INR_IZR_INZ; reflexivity).
    assert (rows = (2, 6)%nat) as ->.
    { destruct (range_ok LinSearch_ok M _ ((4 + 5) / 2 - 1/2 - 2 * half_diag 1) ((4 + 5) / 2 + 1/2 + 2 * half_diag 1) So Ne) as (st & en & Q & L1 & L2 & _ & Hs & He & Xs & Xe); [lra|].
      rewrite map_length, seq_length in L2, He.
      assert (K : Ok rows = Ok (st, en)) by (rewrite <- Rr; exact Q). injection K as ->. f_equal.
      - destruct (Nat.lt_trichotomy st 2) as [L|[L|L]]; [|exact L|]; exfalso.
        + specialize (Xs 2%nat _ (Nt 2%nat ltac:(lia)) L). lra.
        + destruct Hs as [Hs|(y & Ey & Ly)]; [lia|]. rewrite Nt in Ey by lia. injection Ey as <-. assert (L' : (3 <= st)%nat) by lia. apply le_INR in L'. lra.
      - destruct (Nat.lt_trichotomy en 6) as [L|[L|L]]; [|exact L|]; exfalso.
        + destruct He as [He|(y & Ey & Ly)]; [lia|]. rewrite Nt in Ey by lia. injection Ey as <-. assert (L' : (en <= 5)%nat) by lia. apply le_INR in L'. lra.
        + specialize (Xe 6%nat _ (Nt 6%nat ltac:(lia)) L). lra. }
    assert (cols = (5, 8)%nat) as ->.
    { destruct (range_ok LinSearch_ok M _ ((74/10 + 84/10) / 2 - 1/2 - 2 * half_diag 1) ((74/10 + 84/10) / 2 + 1/2 + 2 * half_diag 1) So Ne) as (st & en & Q & L1 & L2 & _ & Hs & He & Xs & Xe); [lra|].
      rewrite map_length, seq_length in L2, He.
      assert (K : Ok cols = Ok (st, en)) by (rewrite <- Rc; exact Q). injection K as ->. f_equal.
      - destruct (Nat.lt_trichotomy st 5) as [L|[L|L]]; [|exact L|]; exfalso.
        + specialize (Xs 5%nat _ (Nt 5%nat ltac:(lia)) L). lra.
        + destruct Hs as [Hs|(y & Ey & Ly)]; [lia|]. rewrite Nt in Ey by lia. injection Ey as <-. assert (L' : (6 <= st)%nat) by lia. apply le_INR in L'. lra.
      - destruct He as [He|(y & Ey & Ly)]; [lia|]. rewrite Nt in Ey by lia. injection Ey as <-. assert (L' : (en <= 8)%nat) by lia. apply le_INR in L'. lra. }
    (* verdicts *)
    assert (Val : forall i c, cell_at gr i = Some c -> c_rad c = half_diag 1 /\ 0 <= fst (c_uni c) /\ (forall h x, In h gp_st -> blocked (fact_of h) x -> fst (c_uni c) <= edist (c_cen c) x) /\
              (fst (c_uni c) = M \/ exists h x, In h gp_st /\ blocked (fact_of h) x /\ edist (c_cen c) x = fst (c_uni c))).
    { intros i c Hc. destruct (fr_cells _ _ _ _ _ F i c Hc) as (Sc & Eu & Rc' & _). rewrite Eu. pose proof (sc_uni _ _ _ Sc) as (N1 & N2 & N3). split; [exact Rc'|].
      split; [destruct N2 as [ -> |(h & _ & _ & (q & _ & <-) & _)]; [lra|apply edist_nonneg]|]. split.
      - intros h x Hh Bx. apply (N3 h x Hh); [|exact Bx]. destruct Hh as [<-|[<-|[]]]; reflexivity.
      - destruct N2 as [N2|(h & Hh & _ & (q & Bq & Dq) & _)]; [left; exact N2|right; exists h, q; auto]. }
    assert (V42 : verdict gp_pole gr 42 = Exterior) by (unfold verdict; change 42%nat with (4 * 9 + 6)%nat; rewrite (No 6%nat 4%nat) by (reflexivity || lia); reflexivity).
    assert (V32 : verdict gp_pole gr 32 = Interior).
    { destruct (Ce 5%nat 3%nat ltac:(lia) ltac:(lia) eq_refl) as (c & Ec & Cc). change (3 * 9 + 5)%nat with 32%nat in Ec. destruct (Val _ _ Ec) as (Rc' & P0 & _). unfold verdict. rewrite Ec, Rc'.
      destruct (Rlt_dec (fst (c_uni c) + 4 * half_diag 1) (gap gp_pole (c_cen c))) as [L|L]; [|reflexivity]. exfalso.
      assert (Gk : gap gp_pole (c_cen c) <= 5 / 2); [|lra]. unfold gap. apply Rmax_lub; [lra|]. cbn [gp_pole crad ccen]. enough (edist (c_cen c) (Pt ((74/10 + 84/10) / 2) ((4 + 5) / 2)) <= 3) by lra.
      apply edist_le; [lra|]. rewrite Cc. cbn [px py]. rewrite I5, I3. lra. }
    assert (Vw : forall j, (j < 9)%nat -> verdict gp_pole gr (j * 9 + 6) = Exterior).
    { intros j Hj. destruct (walled 6 j) eqn:Wj; [unfold verdict; rewrite (No 6%nat j ltac:(lia) Hj Wj); reflexivity|].
      assert (J : j = 0%nat \/ j = 8%nat).
      { unfold walled in Wj. rewrite Nat.eqb_refl in Wj. cbn [andb] in Wj. apply andb_false_iff in Wj as [Q|Q]; apply Nat.leb_gt in Q; lia. }
      destruct (Ce 6%nat j ltac:(lia) Hj Wj) as (c & Ec & Cc). destruct (Val _ _ Ec) as (Rc' & P0 & Lo & _). unfold verdict. rewrite Ec, Rc'.
      assert (U0 : fst (c_uni c) <= 0).
      { assert (B : blocked (fact_of gp_wall) (c_cen c)).
        { right. apply (rbox_inside (23/4) (1/20) (29/4) (171/20) (1/2)); rewrite Cc; cbn [px py]; rewrite ?I6; destruct J as [ -> | -> ]; rewrite ?I8; cbn; lra. }
        specialize (Lo gp_wall (c_cen c) (or_intror (or_introl eq_refl)) B). rewrite edist_refl in Lo. exact Lo. }
      assert (Gk : 3 <= gap gp_pole (c_cen c)).
      { unfold gap. eapply Rle_trans; [|apply Rmax_r]. cbn [gp_pole crad ccen]. pose proof (edist_y (c_cen c) (Pt ((74/10 + 84/10) / 2) ((4 + 5) / 2))) as Ey.
        pose proof (Rabs_out (py (c_cen c) - (4 + 5) / 2)) as Ab. cbn [py] in Ey. rewrite Cc in Ab at 1 2. cbn [py] in Ab. destruct J as [ -> | -> ]; rewrite ?I8 in *; cbn [INR] in *; rewrite Cc in *; cbn [py] in *; lra. }
      destruct (Rlt_dec _ _) as [L|L]; [|exfalso; lra]. destruct (Rle_dec _ _) as [L'|L']; [reflexivity|exfalso; lra]. }
    (* the order *)
    assert (Lg : length (g_cells gr) = 81%nat) by (rewrite (gw_len _ W), Nr, Nc; reflexivity). rewrite Lg in F2.
    destruct (gap_seed gr (verdict gp_pole gr) 80 b3 order b4 Nr Nc V42 F1 F2) as (rest & Eo).
    destruct (fill_correct gr (verdict gp_pole gr) 82 (2, 6)%nat (5, 8)%nat) as (b5 & o5 & b6 & G1 & G2 & _ & Ob & _ & _ & Dj);
      [rewrite Nr, Nc; lia|cbn [fst snd]; rewrite Nr; lia|cbn [fst snd]; rewrite Nc; lia|].
    assert (K : Ok b5 = Ok b3) by (rewrite <- F1, <- G1; reflexivity). injection K as ->. assert (K : Ok (o5, b6) = Ok (order, b4)) by (rewrite <- F2, <- G2; reflexivity). injection K as -> ->.
    rewrite Nr, Nc in Dj.
    assert (N43 : ~ In 43%nat order).
    { intros H43. destruct Dj as [(_ & X & _)|(pre & s & post & _ & Eo' & X & Vs & _ & Re)].
      { specialize (X 32%nat). rewrite Eo in X. specialize (X (or_intror (or_introl eq_refl))). congruence. }
      assert (Es : pre = [42%nat] /\ s = 32%nat).
      { rewrite Eo in Eo'. destruct pre as [|p0 pre]; cbn [app] in Eo'; [injection Eo' as <- _; congruence|]. injection Eo' as <- Eo'. destruct pre as [|p1 pre]; cbn [app] in Eo'; injection Eo' as <- _; [auto|].
        specialize (X 32%nat (or_intror (or_introl eq_refl))). congruence. }
      destruct Es as (-> & ->). rewrite Eo' in H43. cbn [app] in H43. destruct H43 as [H43|H43]; [discriminate|]. apply Re in H43 as (H43 & _).
      assert (Inv : forall x, reach 9 9 (fun x => verdict gp_pole gr x = Interior) 32 x -> (Nat.modulo x 9 <= 6)%nat).
      { intros x Rx. induction Rx as [|x y Rx IH Ox Ly (_ & _ & T1 & T2)]; [cbn; lia|].
        assert (Nx : Nat.modulo x 9 <> 6%nat).
        { intros Q. assert (Ex : x = (Nat.div x 9 * 9 + 6)%nat) by (pose proof (Nat.div_mod x 9 ltac:(lia)); lia).
          assert (Lx : (x < 81)%nat). { destruct Rx as [|x' x Rx' Ox' Lx' _]; lia. }
          assert (Lj : (Nat.div x 9 < 9)%nat) by (apply Nat.div_lt_upper_bound; lia). rewrite Ex in Ox. rewrite (Vw _ Lj) in Ox. discriminate. }
        lia. }
      specialize (Inv _ H43). cbn in Inv. lia. }
    destruct (Ce 7%nat 4%nat ltac:(lia) ltac:(lia) eq_refl) as (c & Ec & Cc). change (4 * 9 + 7)%nat with 43%nat in Ec.
    assert (Cc' : c_cen c = Pt (15/2) (9/2)) by (rewrite Cc, (INR_IZR_INZ 7), (INR_IZR_INZ 4); cbn; f_equal; lra).
    exists c, c. split; [exact Ec|]. split; [rewrite (O2 _ N43); exact Ec|]. split; [exact Cc'|].
    destruct (Val _ _ Ec) as (_ & _ & _ & Nu). pose proof gs_ok as (_ & Gs). split.
    - destruct Nu as [ -> |(h & x & Hh & Bx & <-)]; [lra|]. rewrite Cc'. pose proof (edist_x (Pt (15/2) (9/2)) x) as Ex. pose proof (edist_y (Pt (15/2) (9/2)) x) as Ey.
      pose proof (Rabs_out (15/2 - px x)). pose proof (Rabs_out (9/2 - py x)). cbn [px py] in Ex, Ey.
      destruct Hh as [<-|[<-|[]]].
      + apply Rnot_lt_le. intros L. apply (gp_free x); [lra|lra|exact Bx].
      + apply gp_clear in Bx. lra.
    - unfold gap. cbn [gp_pole crad ccen]. apply Rmax_left. enough (edist (c_cen c) (Pt ((74/10 + 84/10) / 2) ((4 + 5) / 2)) <= 1 / 2) by lra. apply edist_le; [lra|]. rewrite Cc'. cbn [px py]. lra.
  Qed.

  Lemma gap_run : forall depth, exists c0 c sn g, cde_new gp_bb gp_st depth 74 = Ok c0 /\ engine gp_bb gp_st depth 74 gp_ops = Ok (c, sn) /\ cde_hpg c = Ok (Some g) /\
    (exists ce, In (Some ce) (g_cells (hg_grid g)) /\ 1 / 4 <= fst (c_uni ce) /\ gap gp_pole (c_cen ce) = 0) /\
    ~ settled gp_item g /\ ~ settles (c0, []) gp_ops /\ ~ every_cell (exact_cell (dynamic_facts gp_ops)) (hg_grid g).
  Proof.
    intros depth. destruct gap_hpg as (g0 & Eg0 & G0). destruct gp_valid as (Sok & shp & V).
    assert (E0 : exists c0, cde_new gp_bb gp_st depth 74 = Ok c0 /\ cd_hpg c0 = Some g0 /\ cd_unc c0 = []).
    { destruct (cde_new_ok (N := NMp) LinSearch_ok depth gp_bb gp_st 74 (proj1 Sok) (proj2 Sok)) as (qt & E & _).
      assert (Eg' : hpg_new gp_bb gp_st 74 = Ok g0) by exact Eg0. rewrite Eg' in E. cbn [rbind] in E. eexists. split; [exact E|]. split; reflexivity. }
    destruct E0 as (c0 & E0 & Ec0 & Eu0).
    assert (Hn : 74%nat <> 0%nat) by discriminate.
    destruct (grid_no_panic LinSearch_ok M gp_bb gp_st depth 74 gp_ops c0 gp_proper gp_statics gp_valid gp_grid_ops E0) as (c & sn & E).
    destruct (grid_dirty LinSearch_ok M gp_bb gp_st depth 74 gp_ops c sn Hn gp_proper gp_statics gp_valid gp_grid_ops E) as (g & Ecd & Eg). cbn [pending gp_ops] in Eg.
    assert (Es : step (c0, []) (OReg gp_haz) = Ok (c, sn)).
    { unfold engine in E. assert (E0' : cde_new gp_bb gp_st depth 74 = Ok c0) by exact E0. apply rbind_ok in E as (c1 & E1 & E).
      assert (K : Ok c1 = Ok c0) by (rewrite <- E0'; symmetry; exact E1). injection K as ->. unfold gp_ops in E. cbn [rfold] in E. apply rbind_ok in E as (s1 & E2 & E). injection E as ->. exact E2. }
    assert (Er : hpg_register g0 gp_haz = Ok g).
    { cbn [step] in Es. apply rbind_ok in Es as (c' & Es & Q). injection Q as -> _. unfold cde_register in Es. rewrite Eu0 in Es. cbn [position] in Es. apply rbind_ok in Es as ([[qt unc] h'] & E1 & Es).
      apply rbind_ok in E1 as (qt' & _ & E1). injection E1 as -> <- <-. rewrite Ec0 in Es. cbn [opt_hpg] in Es. apply rbind_ok in Es as (og & Er & Es). apply rbind_ok in Er as (g1 & Er & K). injection K as <-. injection Es as <-. cbn [cd_hpg] in Ecd. injection Ecd as ->. exact Er. }
    destruct (gap_register g0 g G0 Er) as (x & x' & _ & Hx & _ & Lx & Gx).
    assert (In' : In (Some x') (g_cells (hg_grid g))).
    { unfold cell_at in Hx. destruct (nth_error (g_cells (hg_grid g)) 43) as [[y|]|] eqn:Ny; try discriminate. injection Hx as ->. eapply nth_error_In. exact Ny. }
    assert (Ns : ~ settled gp_item g).
    { intros Q. specialize (Q x' In' gp_pole (or_introl eq_refl)). lra. }
    exists c0, c, sn, g. split; [exact E0|]. split; [exact E|]. split; [exact Eg|]. split; [exists x'; auto|]. split; [exact Ns|]. split.
    - intros Q. cbn [settles gp_ops] in Q. destruct (Q _ Es) as (Q' & _). exact (Ns (Q' _ Ecd)).
    - intros Q. destruct (Q x' In') as (_ & _ & Lo). specialize (Lo (fact_of gp_haz) gp_pole (or_introl eq_refl) (or_introl eq_refl)). lra.
  Qed.
  Lemma gap_refuted : exists (bb : rect R) (sts : list (hazard R nat)) (h : hazard R nat),
    proper bb /\ Forall static_hazard sts /\ sound_statics sts /\ framed bb (facts sts [OReg h]) /\ valid sts [OReg h] /\ grid_op (OReg h) /\ centred_op bb (OReg h) /\
    feasible (a_obj (h_shape h)) [] (facts sts []) /\
    forall depth, exists c0 c sn g, cde_new bb sts depth 74 = Ok c0 /\ engine bb sts depth 74 [OReg h] = Ok (c, sn) /\ cde_hpg c = Ok (Some g) /\
      ~ settled (a_obj (h_shape h)) g /\ ~ settles (c0, []) [OReg h] /\ ~ every_cell (exact_cell (dynamic_facts [OReg h])) (hg_grid g).
  Proof.
    exists gp_bb, gp_st, gp_haz. split; [exact gp_proper|]. split; [exact gp_static|]. split; [exact gp_statics|]. split; [exact gp_framed|]. split; [exact gp_valid|].
    split; [exact (Forall_inv gp_grid_ops)|]. split; [exact (Forall_inv gp_centred)|]. split; [exact gp_feasible|].
    intros depth. destruct (gap_run depth) as (c0 & c & sn & g & A & B & C & _ & D1 & D2 & D3). exists c0, c, sn, g. repeat (split; [assumption|]). assumption.
  Qed.
  Lemma gap_inexact : exists (bb : rect R) (sts : list (hazard R nat)) (ops : list (op R nat)),
    proper bb /\ sound_statics sts /\ valid sts ops /\ Forall grid_op ops /\ Forall (centred_op bb) ops /\ tidy ops false /\
    forall depth, exists c sn g, engine bb sts depth 74 ops = Ok (c, sn) /\ cde_hpg c = Ok (Some g) /\ ~ every_cell (exact_cell (dynamic_facts ops)) (hg_grid g).
  Proof.
    exists gp_bb, gp_st, gp_ops. split; [exact gp_proper|]. split; [exact gp_statics|]. split; [exact gp_valid|]. split; [exact gp_grid_ops|]. split; [exact gp_centred|]. split; [exact I|].
    intros depth. destruct (gap_run depth) as (c0 & c & sn & g & A & B & C & _ & D1 & D2 & D3). exists c, sn, g. auto.
  Qed.
End Gap.
