(** Removals that take effect at once while another is pending: a plain square bin, no holes,
    and three items.  The cells that belonged to the item removed at once are set back to
    their static value, the cells of the item whose removal is pending keep theirs and stop
    the fill for the next item. *)
From Coq Require Import List Bool Arith Lia Permutation Sorted.
From Verif Require Import Base Num GeoModel HazardModel QTModel TransfModel HpgModel CdeModel HazVecProofs QTProofs BaseProofs CdeSpec CdeOpsProofs CdeHistProofs Instances GeoSpec ParityProofs
  GeoPrimProofs PlaceSpec HpgSpec HpgGridProofs HpgFillProofs HpgCellProofs HpgRegProofs HpgHistProofs HpgGenProofs HpgThmProofs HpgFullProofs HpgTidyProofs HpgRectProofs HpgThinProofs
  RegionProofs PlaceExampleProofs CdeGeoProofs GeoThmProofs CdeThmProofs HpgGapProofs HpgBoxExampleProofs.
From Coq Require Import Reals Lra.
From Verif Require Import GeoModel HazardModel QTModel TransfModel HpgModel CdeModel CdeSpec GeoSpec PlaceSpec HpgSpec.
Import ListNotations.
Local Open Scope R_scope.
#[local] Existing Instance NatEqD.
#[local] Existing Instance LinSearch.

Definition mx_bb : rect R := Rc 0 0 20 20.
Definition mx_bin : poly R := rbox 0 0 20 20 10.
Definition mx_ext : hazard R nat := Hz BinExterior (Arc 0 mx_bin) true.
Definition mx_st : list (hazard R nat) := [mx_ext].
(** the large item in the middle, the small one to its right, the new one to its left *)
Definition mx_p : poly R := rbox 1 6 9 14 4.
Definition mx_e : poly R := rbox (37/4) 9 (45/4) 11 1.
Definition mx_n : poly R := rbox (1/4) (39/4) (3/4) (41/4) (1/4).
Definition mx_hp : hazard R nat := Hz (PlacedItem 1 0%nat) (Arc 1 mx_p) true.
Definition mx_he : hazard R nat := Hz (PlacedItem 2 1%nat) (Arc 2 mx_e) true.
Definition mx_hn : hazard R nat := Hz (PlacedItem 3 2%nat) (Arc 3 mx_n) true.
Definition mx_two : list (op R nat) := [OReg mx_hp; OReg mx_he].
Definition mx_ops : list (op R nat) := mx_two ++ [ODereg (PlacedItem 1 0%nat) false; ODereg (PlacedItem 2 1%nat) true; OReg mx_hn].
Definition mx_all : list (op R nat) := mx_ops ++ [OFlush].
Definition mx_kp : rcircle := Ci (Pt ((1 + 9) / 2) ((6 + 14) / 2)) 4.
Definition mx_ke : rcircle := Ci (Pt ((37/4 + 45/4) / 2) ((9 + 11) / 2)) 1.
Definition mx_kn : rcircle := Ci (Pt ((1/4 + 3/4) / 2) ((39/4 + 41/4) / 2)) (1/4).

Lemma mx_proper : proper mx_bb. Proof. split; cbn; lra. Qed.
Lemma mx_static : Forall (@static_hazard nat) mx_st.
Proof. constructor; [|constructor]. split; [apply good_sound, rbox_good; lra|]. split; [discriminate|exact Logic.I]. Qed.
Lemma mx_statics : sound_statics mx_st.
Proof. constructor; [|constructor]. apply good_sound, rbox_good; lra. Qed.
Lemma mx_free : forall p, 0 < px p < 20 -> 0 < py p < 20 -> ~ blocked (fact_of mx_ext) p.
Proof.
  intros p X Y [Bl|Bl]; destruct (rbox_inside 0 0 20 20 10 p X Y) as [N Eo]; [exact (N Bl)|].
  unfold f_poly in Bl. cbn [fst snd fact_of mx_ext h_shape a_obj] in Bl. unfold mx_bin in Bl. congruence.
Qed.
Lemma mx_clear : clear_box mx_bb (filter (fun h => ent_universal (h_ent h)) mx_st).
Proof. intros h p [<-|[]] [Hx Hy]. cbn in Hx, Hy. apply mx_free; assumption. Qed.
Lemma mx_valid_all : valid mx_st mx_all (N := RNum).
Proof.
  assert (G : forall a b c d k, a < c -> b < d -> good_poly (rbox a b c d k)) by (intros; apply good_wf, rbox_good; assumption).
  split.
  - split; [constructor; [apply G; lra|constructor]|]. simpl. constructor; [intros []|constructor].
  - exists (fun e => match e with BinExterior => (mx_bin, true) | PlacedItem 1%nat _ => (mx_p, true) | PlacedItem 2%nat _ => (mx_e, true) | _ => (mx_n, true) end).
    simpl. repeat split; try (apply G; lra); try reflexivity; try (left; reflexivity); try (right; left; reflexivity);
      intros K; repeat (destruct K as [K|K]; [discriminate|]); destruct K.
Qed.
Lemma mx_valid : valid (N := RNum) mx_st mx_ops.
Proof. apply valid_prefix with [OFlush]. exact mx_valid_all. Qed.
Lemma mx_valid_two : valid (N := RNum) mx_st mx_two.
Proof. eapply valid_prefix. exact mx_valid. Qed.
Lemma mx_grid_op : forall e a b c d k, 0 <= k -> a < c -> b < d -> ent_universal e = true -> ent_position e = Interior -> forall z, grid_op (OReg (Hz e (Arc z (rbox a b c d k)) true) : op R nat).
Proof.
  intros e a b c d k Hk Lx Ly U P z. split; [exact P|]. split; [exact U|]. split; [reflexivity|]. split; [|cbn; lra].
  eexists. split; [reflexivity|]. cbn [s_poles s_bcircle]. split; [discriminate|]. split; [intros q [<-|[]]; cbn; lra|]. split; [cbn; lra|]. intros q p [<-|[]] H. exact H.
Qed.
Lemma mx_grid_two : Forall grid_op mx_two.
Proof. constructor; [|constructor; [|constructor]]; apply mx_grid_op; try reflexivity; lra. Qed.
Lemma mx_grid_ops : Forall grid_op mx_ops.
Proof.
  apply Forall_app. split; [exact mx_grid_two|]. constructor; [exact Logic.I|]. constructor; [exact Logic.I|]. constructor; [|constructor]. apply mx_grid_op; try reflexivity; lra.
Qed.
Lemma mx_grid_all : Forall grid_op mx_all.
Proof. apply Forall_app. split; [exact mx_grid_ops|]. constructor; [exact Logic.I|constructor]. Qed.
Lemma mx_centred_two : Forall (centred_op mx_bb) mx_two.
Proof. constructor; [|constructor; [|constructor]]; intros k [<-|[]]; split; cbn; lra. Qed.
Lemma mx_centred_all : Forall (centred_op mx_bb) mx_all.
Proof.
  apply Forall_app. split; [|constructor; [exact Logic.I|constructor]]. apply Forall_app. split; [exact mx_centred_two|].
  constructor; [exact Logic.I|]. constructor; [exact Logic.I|]. constructor; [|constructor]. intros k [<-|[]]; split; cbn; lra.
Qed.
(** all three are placed where they collide with nothing *)
Lemma mx_feasible : feasible mx_p [] (facts mx_st []) /\ feasible mx_e [] (facts mx_st [OReg mx_hp]) /\
  feasible mx_n [] (facts mx_st (mx_two ++ [ODereg (PlacedItem 1 0%nat) false; ODereg (PlacedItem 2 1%nat) true])).
Proof.
  assert (Fr : forall a b c d k p, 0 < a -> 0 < b -> a < c -> b < d -> c < 20 -> d < 20 -> region (p_pts (rbox a b c d k)) p -> ~ blocked (fact_of mx_ext) p).
  { intros a b c d k p A B C E F G Rp. apply rbox_region in Rp as (X & Y); try lra. cbn [x_min x_max y_min y_max] in X, Y. apply mx_free; lra. }
  split; [|split]; intros f Hf _ _ p Rp.
  - destruct Hf as [<-|[]]. eapply Fr; [..|exact Rp]; lra.
  - destruct Hf as [<-|[<-|[]]]; [eapply Fr; [..|exact Rp]; lra|]. intros Bl. assert (R : region (p_pts mx_p) p) by exact Bl. apply rbox_region in R as (X & _); [|lra|lra]. apply rbox_region in Rp as (X' & _); [|lra|lra]. cbn in X, X'. lra.
  - destruct Hf as [<-|[]]. eapply Fr; [..|exact Rp]; lra.
Qed.
Lemma mx_framed : framed mx_bb (facts mx_st mx_all).
Proof.
  split; [exact mx_proper|]. intros f [<-|[<-|[]]] H; try discriminate. unfold f_poly, inflate_to_square, mx_bb. simpl. unr.
  rdestr (20 - 0) (20 - 0); [lra|]. f_equal; lra.
Qed.

Section Mix.
  Variable M : R.
  Hypothesis HM : 10 <= M.
  #[local] Instance NMa : Num R := RNumT Reqb M.
  Lemma mx_hpg : exists g, hpg_new mx_bb mx_st 400 = Ok g /\ covered mx_bb (hg_grid g) /\ fresh M mx_bb mx_st 1 g.
  Proof.
    destruct (square_grid LinSearch_ok M mx_bb mx_st 400 mx_proper) as (g & Eg & Cv); [cbn; lra|exact mx_static| |exact mx_clear|discriminate|].
    { eexists. split; [left; reflexivity|reflexivity]. }
    exists g. split; [exact Eg|]. split; [exact Cv|].
    destruct (hpg_new_ok LinSearch_ok M mx_bb mx_st 400 g mx_proper mx_statics Eg) as (dim & F).
    enough (dim = 1) as -> by exact F.
    assert (G1 : gen_dim mx_bb 400 f1 = 1).
    { unfold gen_dim, r_area. cbn [fsqrt fmul fdiv f1 fofN NMa RNumT]. unfold r_width, r_height, mx_bb. cbn [x_min x_max y_min y_max fsub NMa RNumT].
      rewrite !Rminus_0_r, (INR_IZR_INZ 400). change (IZR (Z.of_nat 400)) with 400. replace (20 * 20 / 400) with 1 by lra. rewrite sqrt_1. lra. }
    destruct (attempt_full M mx_bb mx_st 400 f1) as (out & Ea & La).
    { assert (Q : 0 < gen_dim mx_bb 400 f1) by (rewrite G1; lra). exact Q. }
    { intros i j Hi Hj. apply clear_kept; [exact mx_proper|exact mx_static|discriminate|exact mx_clear| |exact Hi|exact Hj]. assert (Q : 0 < gen_dim mx_bb 400 f1) by (rewrite G1; lra). exact Q. }
    assert (C20 : Rceil_nat (20 / 1) = 20%nat).
    { assert (H1 : (19 < Rceil_nat (20 / 1))%nat) by (apply ceil_nat; rewrite (INR_IZR_INZ 19); cbn; lra). assert (H2 : ~ (20 < Rceil_nat (20 / 1))%nat) by (intros K; apply ceil_nat in K; rewrite (INR_IZR_INZ 20) in K; cbn in K; lra). lia. }
    assert (L : length out = 400%nat).
    { rewrite La. assert (Q1 : r_width mx_bb / gen_dim mx_bb 400 f1 = 20 / 1) by (rewrite G1; cbn; lra).
      assert (Q2 : r_height mx_bb / gen_dim mx_bb 400 f1 = 20 / 1) by (rewrite G1; cbn; lra).
      transitivity (Rceil_nat (20 / 1) * Rceil_nat (20 / 1))%nat; [f_equal; f_equal; assumption|]. rewrite C20. reflexivity. }
    assert (Ege : generate mx_bb mx_st 400 = Ok out).
    { apply (first_hit M); [|exact Ea|exact L]. unfold r_area, r_width, r_height, mx_bb. cbn [x_min x_max y_min y_max]. cbn. apply Rltb_spec. lra. }
    unfold hpg_new in Eg. assert (Ege' : @generate R (NMq M) nat mx_bb (filter (fun h => ent_universal (h_ent h)) mx_st) 400 = Ok out) by exact Ege.
    change 400%nat with (S 399) in Eg, Ege'. cbv iota in Eg.
    rewrite Ege' in Eg. cbn [rbind] in Eg. apply rbind_ok in Eg as (r0 & Er & Eg). apply rbind_ok in Eg as (els & _ & Eg). apply rbind_ok in Eg as (gr & _ & Eg). injection Eg as <-.
    pose proof (fr_rad _ _ _ _ _ F) as Rd. cbn [hg_rad] in Rd.
    destruct (gen_attempt_ok M _ _ _ _ _ Ea) as (_ & Hr & _). destruct out as [|r out]; [discriminate|]. cbn [hd_error expect] in Er. injection Er as <-.
    destruct (proj1 (Hr r) (or_introl eq_refl)) as (i & j & _ & _ & -> & _).
    assert (Hd1 : half_diag dim = half_diag 1).
    { rewrite <- Rd. rewrite <- (square_diameter M mx_bb 1 i j) by lra.
      change (@gen_dim R (NMg M) mx_bb 400 f1) with (@gen_dim R NMa mx_bb 400 f1). rewrite G1. unfold f2. cbn [fdiv fadd f1 NMq RNumT]. f_equal. }
    destruct (half_diag_sq dim (fr_dim _ _ _ _ _ F)) as (A1 & A2). destruct (half_diag_sq 1 ltac:(lra)) as (B1 & B2).
    rewrite Hd1 in A2. pose proof (fr_dim _ _ _ _ _ F). assert (dim * dim = 1 * 1) by lra. nra.
  Qed.
  (** the hazard a static value belongs to is not an item *)
  Lemma stat_owner : forall bb (sts : list (hazard R nat)) n g, hpg_new bb sts n = Ok g ->
    every_cell (fun c => forall i t, snd (c_stat c) <> PlacedItem i t) (hg_grid g).
  Proof.
    intros bb sts n g E c Hc. unfold hpg_new in E. destruct n as [|n]; [discriminate|].
    apply rbind_ok in E as (rects & _ & E). apply rbind_ok in E as (r0 & _ & E). apply rbind_ok in E as (els & Eels & E). apply rbind_ok in E as (gr & Egr & E). injection E as <-. cbn [hg_grid] in Hc.
    unfold grid_new in Egr. cbv zeta in Egr. apply rbind_ok in Egr as (cells & Ec & Egr). injection Egr as <-. cbn [g_cells] in Hc.
    destruct (put_cells M _ _ _ _ _ Ec c Hc) as [K|K]; [apply repeat_spec in K; discriminate|].
    clear -Eels K. revert els Eels K. induction rects as [|r rects IH]; intros els E K; cbn [rmapM] in E; [injection E as <-; destruct K|].
    apply rbind_ok in E as (y & Ey & E). apply rbind_ok in E as (ys & Eys & E). injection E as <-. destruct K as [<-|K]; [|eapply IH; eassumption].
    apply rbind_ok in Ey as (c' & Ec & Ey). injection Ey as <-. cbn [fst]. unfold cell_new in Ec. apply rbind_ok in Ec as ([s q] & Ef & Ec). injection Ec as <-. cbn [c_stat].
    assert (G : forall (l : list (hazard R nat)) a q0 s q cen, rfold (cell_static_step cen) l (a, q0) = Ok (s, q) -> (forall i t, snd a <> PlacedItem i t) -> forall i t, snd s <> PlacedItem i t).
    { clear. induction l as [|h l IH]; intros a q0 s q cen E Ha; cbn [rfold] in E; [injection E as <- _; exact Ha|].
      apply rbind_ok in E as ([a1 q1] & E1 & E). eapply IH; [exact E|]. unfold cell_static_step in E1. apply rbind_ok in E1 as ([pos d] & _ & E1).
      destruct (h_ent h); try discriminate.
      - injection E1 as <- _. destruct (Rltb _ _); [discriminate|exact Ha].
      - injection E1 as <- _. destruct (Rltb _ _); [discriminate|exact Ha].
      - apply rbind_ok in E1 as (cur & _ & E1). injection E1 as <- _. exact Ha. }
    eapply G; [exact Ef|]. cbn [snd]. discriminate.
  Qed.

  (** *** geometry: the wall is the fifth column, the cell left behind is (9,9) *)
  Lemma mx_mid : forall i, mid 0 1 i = INR i + / 2. Proof. intros i. unfold mid. lra. Qed.
  Lemma mx_wall : forall y, let c := Pt (9 / 2) y in gap mx_kp c + 4 * half_diag 1 < gap mx_kn c /\ gap mx_kp c < gap mx_ke c /\ 0 <= gap mx_kp c.
  Proof.
    intros y c. pose proof hd1. unfold gap. cbn [mx_kp mx_ke mx_kn ccen crad].
    set (P := edist c (Pt ((1 + 9) / 2) ((6 + 14) / 2))). set (E := edist c (Pt ((37/4 + 45/4) / 2) ((9 + 11) / 2))). set (Q := edist c (Pt ((1/4 + 3/4) / 2) ((39/4 + 41/4) / 2))).
    assert (P2 : P * P = (1/2) ^ 2 + (y - 10) ^ 2) by (unfold P; rewrite edist_sq; cbn [c px py]; lra).
    assert (E2 : E * E = (23/4) ^ 2 + (y - 10) ^ 2) by (unfold E; rewrite edist_sq; cbn [c px py]; lra).
    assert (Q2 : Q * Q = 4 ^ 2 + (y - 10) ^ 2) by (unfold Q; rewrite edist_sq; cbn [c px py]; lra).
    assert (P0 : 0 <= P) by apply edist_nonneg. assert (E0 : 0 <= E) by apply edist_nonneg. assert (Q0 : 0 <= Q) by apply edist_nonneg.
    pose proof (pow2_ge_0 (y - 10)). assert (Q4 : 4 <= Q) by nra. assert (E5 : 5 <= E) by nra. assert (PQ : P <= Q) by nra. assert (PE : P <= E) by nra.
    split; [|split].
    - apply Rlt_le_trans with (Q - 1/4); [|apply Rmax_r]. enough (Rmax 0 (P - 4) < Q - 1/4 - 4 * half_diag 1) by lra. apply Rmax_lub_lt; lra.
    - apply Rlt_le_trans with (E - 1); [|apply Rmax_r]. apply Rmax_lub_lt; lra.
    - apply Rmax_l.
  Qed.
  Lemma mx_target : let c := Pt (19 / 2) (19 / 2) in gap mx_ke c = 0 /\ 1 / 4 <= gap mx_kp c /\ gap mx_kn c <= 9.
  Proof.
    intros c. unfold gap. cbn [mx_kp mx_ke mx_kn ccen crad]. split; [|split].
    - apply Rmax_left. enough (edist c (Pt ((37/4 + 45/4) / 2) ((9 + 11) / 2)) <= 1) by lra. apply edist_le; [lra|]. cbn [c px py]. lra.
    - eapply Rle_trans; [|apply Rmax_r]. pose proof (edist_x c (Pt ((1 + 9) / 2) ((6 + 14) / 2))) as Ex. pose proof (Rabs_out (px c - (1 + 9) / 2)). cbn [c px py] in *. lra.
    - apply Rmax_lub; [lra|]. enough (edist c (Pt ((1/4 + 3/4) / 2) ((39/4 + 41/4) / 2)) <= 37 / 4) by lra. apply edist_le; [lra|]. cbn [c px py]. lra.
  Qed.
  (** *** the fill for the new item never gets past the wall *)
  Lemma mx_register : forall nx ny (g g' : hpg R nat) ce, regular 0 0 1 nx ny (hg_grid g) -> length (g_cells (hg_grid g)) = (ny * nx)%nat -> hg_rad g = half_diag 1 ->
    (9 < nx)%nat -> (9 < ny)%nat ->
    (forall r c, (r < ny)%nat -> cell_at (hg_grid g) (r * nx + 4) = Some c -> fst (c_uni c) <= gap mx_kp (c_cen c)) ->
    cell_at (hg_grid g) (9 * nx + 9) = Some ce -> 9 < fst (c_uni ce) ->
    hpg_register g mx_hn = Ok g' -> cell_at (hg_grid g') (9 * nx + 9) = Some ce.
  Proof.
    intros nx ny g g' ce Rg Lg Rd Hnx Hny Wl Ec Hi E. pose proof (regular_wf _ _ _ _ _ _ Rg Lg) as W. pose proof hd1 as Hd. pose proof Rg as [_ _ _ Er Ecl At].
    set (gr := hg_grid g) in *. assert (Nc : n_cols gr = nx) by (unfold n_cols; rewrite Ecl, map_length, seq_length; reflexivity).
    assert (Nr : n_rows gr = ny) by (unfold n_rows; rewrite Er, map_length, seq_length; reflexivity).
    unfold hpg_register in E. cbn [mx_hn h_shape a_obj p_surr mx_n rbox expect rbind s_poles] in E. apply rbind_ok in E as (b & Eb & E). apply rbind_ok in E as ([g1 b1] & E1 & E). injection E as <-. cbn [hg_grid].
    cbn [rfold] in E1. fold mx_kn in E1. apply rbind_ok in E1 as ([g2 b2] & E1 & E). injection E as -> ->. rewrite Rd in E1.
    assert (Lb : length (bf_state b) = (n_rows gr * n_cols gr)%nat).
    { destruct (bf_new_ok LinSearch_ok M gr (p_bbox mx_n) W) as (b0 & Eb0 & Lb0); [cbn; lra|cbn; lra|].
      assert (K : Ok b0 = Ok b) by (rewrite <- Eb0; exact Eb). injection K as ->. exact Lb0. }
    destruct (register_pole_grid LinSearch_ok M (half_diag 1) mx_hn mx_kn gr b W Lb eq_refl) as (g2 & b2 & order & rows & cols & E2 & _ & _ & _ & _ & Rr & Rc & (b3 & b4 & F1 & F2) & O1 & O2); [cbn; lra|lra|].
    assert (K : Ok (g2, b2) = Ok (g1, b1)) by (rewrite <- E2; exact E1). injection K as -> ->. clear E2 E1.
    rewrite O2; [exact Ec|]. intros Ho.
    (* the target is reported as inside *)
    destruct (At 9%nat 9%nat Hny Hnx) as (ce' & Ec' & Cc & _). rewrite Ec in Ec'. injection Ec' as <-.
    assert (Cc' : c_cen ce = Pt (19/2) (19/2)) by (rewrite Cc, !mx_mid, (INR_IZR_INZ 9); cbn; f_equal; lra).
    destruct mx_target as (_ & _ & T3). cbv zeta in T3. rewrite <- Cc' in T3.
    assert (Vt : verdict mx_kn gr (9 * nx + 9) = Interior).
    { unfold verdict. rewrite Ec. destruct (Rlt_dec _ _) as [L|L]; [|reflexivity]. destruct (Rle_dec _ _) as [L'|L']; [|reflexivity]. exfalso. lra. }
    (* the wall is reported as outside *)
    assert (I4 : INR 4 = 4) by (rewrite INR_IZR_INZ; reflexivity).
    assert (Vw : forall r, (r < ny)%nat -> verdict mx_kn gr (r * nx + 4) = Exterior).
    { intros r Hr. destruct (At r 4%nat Hr ltac:(lia)) as (c & Ew & Cw & Rw). specialize (Wl r c Hr Ew). rewrite !mx_mid, I4 in Cw. replace (4 + / 2) with (9 / 2) in Cw by lra.
      destruct (mx_wall (INR r + / 2)) as (G1 & G2 & G3). rewrite <- Cw in G1, G2, G3. unfold verdict. rewrite Ew, Rw.
      destruct (Rlt_dec _ _) as [L|L]; [|exfalso; lra]. destruct (Rle_dec _ _) as [L'|L']; [reflexivity|exfalso; lra]. }
    (* the fill starts left of the wall *)
    rewrite Er in Rr. rewrite Ecl in Rc. cbn [mx_kn ccen crad px py] in Rr, Rc.
    assert (SoX : forall n, StronglySorted Rlt (map (mid 0 1) (seq 0 n))) by (intros n; apply mids_sorted; lra).
    assert (NeX : forall n, (0 < n)%nat -> map (mid 0 1) (seq 0 n) <> []) by (intros [|n] Hn; [lia|discriminate]).
    destruct (range_ok LinSearch_ok M _ ((39/4 + 41/4) / 2 - 1/4 - 2 * half_diag 1) ((39/4 + 41/4) / 2 + 1/4 + 2 * half_diag 1) (SoX ny) (NeX ny ltac:(lia))) as (r0 & r1 & Q & Rl & Ru & _); [lra|].
    assert (K : Ok rows = Ok (r0, r1)) by (rewrite <- Rr; exact Q). injection K as ->. clear Q.
    destruct (range_ok LinSearch_ok M _ ((1/4 + 3/4) / 2 - 1/4 - 2 * half_diag 1) ((1/4 + 3/4) / 2 + 1/4 + 2 * half_diag 1) (SoX nx) (NeX nx ltac:(lia))) as (c0 & c1 & Q & Cl & Cu & _ & _ & _ & _ & Xe); [lra|].
    assert (K : Ok cols = Ok (c0, c1)) by (rewrite <- Rc; exact Q). injection K as ->. clear Q.
    rewrite map_length, seq_length in Ru, Cu.
    assert (C1 : (c1 <= 3)%nat).
    { destruct (le_lt_dec c1 3) as [L|L]; [exact L|]. exfalso. specialize (Xe 3%nat (mid 0 1 3)). rewrite mids_nth in Xe by lia. specialize (Xe eq_refl L). rewrite mx_mid, (INR_IZR_INZ 3) in Xe. cbn in Xe. lra. }
    destruct (fill_correct gr (verdict mx_kn gr) (S (length (g_cells gr))) (r0, r1) (c0, c1)) as (b5 & o5 & b6 & G1 & G2 & _ & Ob & _ & _ & Dj);
      [rewrite Lg, Nr, Nc; lia|cbn [fst snd]; rewrite Nr; lia|cbn [fst snd]; rewrite Nc; lia|].
    assert (K : Ok b5 = Ok b3) by (rewrite <- F1, <- G1; reflexivity). injection K as ->. assert (K : Ok (o5, b6) = Ok (order, b4)) by (rewrite <- F2, <- G2; reflexivity). injection K as -> ->.
    rewrite Nr, Nc in Dj, Ob.
    destruct Dj as [(_ & X & _)|(pre & s & post & _ & Eo & X & Vs & (a & (_ & Ba) & _ & _ & _ & Ta) & Re)]; [rewrite (X _ Ho) in Vt; discriminate|].
    rewrite Eo in Ho. apply in_app_iff in Ho as [Ho|Ho]; [rewrite (X _ Ho) in Vt; discriminate|]. apply Re in Ho as (Ho & _). cbn [fst snd] in Ba.
    assert (Ls : (s < ny * nx)%nat) by (apply Ob; rewrite Eo; apply in_app_iff; right; left; reflexivity).
    assert (Wx : forall x, (x < ny * nx)%nat -> verdict mx_kn gr x = Interior -> Nat.modulo x nx <> 4%nat).
    { intros x Lx Vx Q. assert (Ex : x = (Nat.div x nx * nx + 4)%nat) by (pose proof (Nat.div_mod x nx ltac:(lia)); lia).
      assert (Lj : (Nat.div x nx < ny)%nat) by (apply Nat.div_lt_upper_bound; lia). rewrite Ex, (Vw _ Lj) in Vx. discriminate. }
    assert (Inv : forall x, reach ny nx (fun x => verdict mx_kn gr x = Interior) s x -> (x < ny * nx)%nat /\ (Nat.modulo x nx <= 4)%nat).
    { intros x Rx. induction Rx as [|x y Rx IH Ox Ly (_ & _ & T1 & T2)]; [split; [exact Ls|lia]|]. split; [exact Ly|]. destruct IH as (Lx & IH). pose proof (Wx x Lx Ox). lia. }
    destruct (Inv _ Ho) as (_ & Hm). rewrite (Nat.add_comm (9 * nx) 9), Nat.mod_add, Nat.mod_small in Hm; lia.
  Qed.

  (** *** what the operations do to the grid *)
  Lemma Ok_inj : forall {A} (a b : A), Ok a = Ok b -> a = b. Proof. intros A a b [=]. assumption. Qed.
  Lemma register_unc : forall (g g' : hpg R nat) h, hpg_register g h = Ok g' -> hg_unc g' = hg_unc g.
  Proof. intros g g' h E. unfold hpg_register in E. apply rbind_ok in E as (? & _ & E). apply rbind_ok in E as (? & _ & E). apply rbind_ok in E as ([? ?] & _ & E). apply Ok_inj in E. subst g'. reflexivity. Qed.
  Lemma step_reg : forall c sn (h : hazard R nat) c' sn' g, position (ent_is (h_ent h)) (cd_unc c) = None -> cd_hpg c = Some g -> step (c, sn) (OReg h) = Ok (c', sn') ->
    sn' = sn /\ cd_dyn c' = cd_dyn c ++ [h] /\ cd_unc c' = cd_unc c /\ exists g', hpg_register g h = Ok g' /\ cd_hpg c' = Some g'.
  Proof.
    intros c sn h c' sn' g Un Eg E. cbn [step] in E. apply rbind_ok in E as (c1 & E & K). apply Ok_inj in K. assert (c1 = c') by congruence. assert (sn = sn') by congruence. subst c1 sn'.
    unfold cde_register in E. rewrite Un, Eg in E. apply rbind_ok in E as ([[qt unc] h'] & E1 & E). apply rbind_ok in E1 as (qt' & _ & E1). apply Ok_inj in E1.
    assert (unc = cd_unc c) by congruence. assert (h' = h) by congruence. subst unc h'. apply rbind_ok in E as (og & Eo & E). apply Ok_inj in E. subst c'.
    cbn [opt_hpg] in Eo. apply rbind_ok in Eo as (g' & Er & Eo). apply Ok_inj in Eo. subst og. cbn [cd_dyn cd_unc cd_hpg]. split; [reflexivity|]. split; [reflexivity|]. split; [reflexivity|]. exists g'. auto.
  Qed.
  Lemma step_dereg : forall c sn (e : entity nat) b c' sn' g i (h : hazard R nat) dyn, position (ent_is e) (cd_dyn c) = Some i -> swap_remove i (cd_dyn c) = Some (h, dyn) -> cd_hpg c = Some g ->
    step (c, sn) (ODereg e b) = Ok (c', sn') ->
    sn' = sn /\ cd_dyn c' = dyn /\ cd_unc c' = (if b then cd_unc c else cd_unc c ++ [h]) /\ exists g', hpg_deregister g e dyn b = Ok g' /\ cd_hpg c' = Some g'.
  Proof.
    intros c sn e b c' sn' g i h dyn Ep Es Eg E. cbn [step] in E. apply rbind_ok in E as (c1 & E & K). apply Ok_inj in K. assert (c1 = c') by congruence. assert (sn = sn') by congruence. subst c1 sn'.
    unfold cde_deregister in E. rewrite Ep in E. cbn [expect rbind] in E. rewrite Es in E. cbn [expect rbind] in E. rewrite Eg in E. cbn [opt_hpg] in E.
    destruct b; cbn iota in E; apply rbind_ok in E as (og & Eo & E); apply Ok_inj in E; subst c'; apply rbind_ok in Eo as (g' & Er & Eo); apply Ok_inj in Eo; subst og;
      cbn [cd_dyn cd_unc cd_hpg]; (split; [reflexivity|]; split; [reflexivity|]; split; [reflexivity|]; exists g'; auto).
  Qed.
  Lemma on_cells_at : forall (f : cell R nat -> res (cell R nat)) g g', on_cells f g = Ok g' -> forall i c, cell_at g i = Some c -> exists c', f c = Ok c' /\ cell_at g' i = Some c'.
  Proof.
    intros f g g' E i c Hc. unfold on_cells in E. apply rbind_ok in E as (l & E & K). apply Ok_inj in K. subst g'. unfold cell_at in *. cbn [g_cells].
    revert l i E Hc. induction (g_cells g) as [|o os IH]; intros l i E Hc; [destruct i; discriminate|]. cbn [rmapM] in E. apply rbind_ok in E as (y & Ey & E). apply rbind_ok in E as (ys & Eys & E). apply Ok_inj in E. subst l.
    destruct i as [|i]; cbn [nth_error] in *; [|eapply IH; eassumption]. subst o. apply rbind_ok in Ey as (c' & Ec & Ey). apply Ok_inj in Ey. subst y. eauto.
  Qed.
  Lemma dereg_none : forall e (c c' : cell R nat), cell_deregister e [] c = Ok c' -> c' = if memb ent_eqb (snd (c_uni c)) e then set_uni c (c_stat c) else c.
  Proof. intros e c c' E. unfold cell_deregister in E. destruct (memb _ _ _); [|apply Ok_inj in E; congruence]. cbn in E. apply Ok_inj in E. congruence. Qed.
  (** the static value of the cell *)
  Lemma mx_static_value : forall c : cell R nat, c_cen c = Pt (19/2) (19/2) -> nearest M mx_st (fun h => ent_universal (h_ent h) = true) (c_cen c) (fst (c_stat c)) -> 9 < fst (c_stat c).
  Proof.
    intros c Ec (_ & [->|(h & [<-|[]] & _ & Di)] & _); [lra|]. rewrite Ec in Di. destruct Di as ((x & Bx & Dx) & _). 
    destruct (Rlt_le_dec 9 (fst (c_stat c))) as [L|L]; [exact L|]. exfalso. apply (mx_free x); [| |exact Bx].
    - pose proof (edist_x (Pt (19/2) (19/2)) x) as K. destruct (Rabs_out (px (Pt (19/2) (19/2)) - px x)). cbn [px] in *. lra.
    - pose proof (edist_y (Pt (19/2) (19/2)) x) as K. destruct (Rabs_out (py (Pt (19/2) (19/2)) - py x)). cbn [py] in *. lra.
  Qed.
  Definition mx_four : list (op R nat) := mx_two ++ [ODereg (PlacedItem 1 0%nat) false; ODereg (PlacedItem 2 1%nat) true].
  Lemma mx_valid_four : valid (N := RNum) mx_st mx_four.
  Proof. apply valid_prefix with [OReg mx_hn]. exact mx_valid. Qed.

  Lemma mx_run : forall depth, exists c0 c5 g5 c sn g ce, cde_new mx_bb mx_st depth 400 = Ok c0 /\ cd_hpg c0 <> None /\ (forall g0, cd_hpg c0 = Some g0 -> covered mx_bb (hg_grid g0)) /\
    engine mx_bb mx_st depth 400 mx_ops = Ok (c5, sn) /\ cd_hpg c5 = Some g5 /\ ~ settled mx_n g5 /\ ~ settles (c0, []) mx_ops /\
    engine mx_bb mx_st depth 400 mx_all = Ok (c, sn) /\ cde_hpg c = Ok (Some g) /\ In (Some ce) (g_cells (hg_grid g)) /\ gap mx_kn (c_cen ce) < fst (c_uni ce).
  Proof.
    intros depth. destruct mx_hpg as (g0 & Eg0 & Cv & F). destruct mx_valid_two as (Sok & shp & V).
    assert (Hn : 400%nat <> 0%nat) by discriminate.
    assert (E0 : exists c0, cde_new mx_bb mx_st depth 400 = Ok c0 /\ cd_hpg c0 = Some g0 /\ cd_unc c0 = [] /\ cd_dyn c0 = []).
    { destruct (cde_new_ok (N := NMa) LinSearch_ok depth mx_bb mx_st 400 (proj1 Sok) (proj2 Sok)) as (qt & E & _).
      assert (Eg' : hpg_new mx_bb mx_st 400 = Ok g0) by exact Eg0. rewrite Eg' in E. cbn [rbind] in E. eexists. split; [exact E|]. split; [reflexivity|]. split; reflexivity. }
    destruct E0 as (c0 & E0 & Ec0 & Eu0 & Ed0).
    destruct (grid_no_panic LinSearch_ok M mx_bb mx_st depth 400 mx_all c0 mx_proper mx_statics mx_valid_all mx_grid_all E0) as (c6 & sn6 & E).
    assert (Run : forall ops s, engine mx_bb mx_st depth 400 ops = Ok s <-> rfold step ops (c0, []) = Ok s).
    { intros ops s. unfold engine. assert (E0' : cde_new mx_bb mx_st depth 400 = Ok c0) by exact E0. rewrite E0'. cbn [rbind]. reflexivity. }
    apply Run in E. unfold mx_all, mx_ops, mx_two in E. cbn [app rfold] in E.
    apply rbind_ok in E as ([c1 sn1] & S1 & E). apply rbind_ok in E as ([c2 sn2] & S2 & E). apply rbind_ok in E as ([c3 sn3] & S3 & E). apply rbind_ok in E as ([c4 sn4] & S4 & E).
    apply rbind_ok in E as ([c5 sn5] & S5 & E). apply rbind_ok in E as (s6 & S6 & E). apply Ok_inj in E. subst s6.
    assert (Eng2 : engine mx_bb mx_st depth 400 mx_two = Ok (c2, sn2)) by (apply Run; unfold mx_two; cbn [rfold]; rewrite S1; cbn [rbind]; rewrite S2; reflexivity).
    assert (Eng4 : engine mx_bb mx_st depth 400 mx_four = Ok (c4, sn4)) by (apply Run; unfold mx_four, mx_two; cbn [app rfold]; rewrite S1; cbn [rbind]; rewrite S2; cbn [rbind]; rewrite S3; cbn [rbind]; rewrite S4; reflexivity).
    assert (Eng5 : engine mx_bb mx_st depth 400 mx_ops = Ok (c5, sn5)) by (apply Run; unfold mx_ops, mx_two; cbn [app rfold]; rewrite S1; cbn [rbind]; rewrite S2; cbn [rbind]; rewrite S3; cbn [rbind]; rewrite S4; cbn [rbind]; rewrite S5; reflexivity).
    assert (Eng6 : engine mx_bb mx_st depth 400 mx_all = Ok (c6, sn6)) by (apply Run; unfold mx_all, mx_ops, mx_two; cbn [app rfold]; rewrite S1; cbn [rbind]; rewrite S2; cbn [rbind]; rewrite S3; cbn [rbind]; rewrite S4; cbn [rbind]; rewrite S5; cbn [rbind]; rewrite S6; reflexivity).
    (* the states *)
    destruct (step_reg c0 [] mx_hp c1 sn1 g0) as (-> & D1 & U1 & g1 & R1 & H1); [rewrite Eu0; reflexivity|exact Ec0|exact S1|]. rewrite Ed0 in D1. rewrite Eu0 in U1.
    destruct (step_reg c1 [] mx_he c2 sn2 g1) as (-> & D2 & U2 & g2 & R2 & H2); [rewrite U1; reflexivity|exact H1|exact S2|]. rewrite D1 in D2. rewrite U1 in U2. cbn [app] in D2.
    destruct (step_dereg c2 [] (PlacedItem 1 0%nat) false c3 sn3 g2 0%nat mx_hp [mx_he]) as (-> & D3 & U3 & g3 & R3 & H3); [rewrite D2; reflexivity|rewrite D2; reflexivity|exact H2|exact S3|]. rewrite U2 in U3. cbn [app] in U3.
    destruct (step_dereg c3 [] (PlacedItem 2 1%nat) true c4 sn4 g3 0%nat mx_he []) as (-> & D4 & U4 & g4 & R4 & H4); [rewrite D3; reflexivity|rewrite D3; reflexivity|exact H3|exact S4|]. rewrite U3 in U4.
    destruct (step_reg c4 [] mx_hn c5 sn5 g4) as (-> & D5 & U5 & g5 & R5 & H5); [rewrite U4; reflexivity|exact H4|exact S5|]. rewrite D4 in D5. cbn [app] in D5.
    (* two items: exact *)
    destruct (grid_dirty LinSearch_ok M mx_bb mx_st depth 400 mx_two c2 [] Hn mx_proper mx_statics mx_valid_two mx_grid_two Eng2) as (g2' & Q2 & Eg2). rewrite H2 in Q2. injection Q2 as <-. cbn [pending mx_two] in Eg2.
    pose proof (covered_exact LinSearch_ok M mx_bb mx_st depth 400 mx_two c0 c2 [] g2 ltac:(lra) Hn mx_proper mx_statics mx_valid_two mx_grid_two mx_centred_two Logic.I E0) as Ex2.
    specialize (Ex2 ltac:(rewrite Ec0; intros g' [= <-]; exact Cv) Eng2 Eg2).
    assert (Go4 : Forall grid_op mx_four) by (pose proof mx_grid_ops as K; unfold mx_ops in K; unfold mx_four; apply Forall_app in K as (K1 & K2); apply Forall_app; split; [exact K1|constructor; [exact Logic.I|constructor; [exact Logic.I|constructor]]]).
    (* frames *)
    assert (Fr : forall ops c sn g, valid (N := RNum) mx_st ops -> Forall grid_op ops -> engine mx_bb mx_st depth 400 ops = Ok (c, sn) -> cd_hpg c = Some g -> same_grid (hg_grid g0) (hg_grid g) /\ hg_rad g = half_diag 1).
    { intros ops c sn g Vo Goo Eo Ho. destruct (engine_grid' LinSearch_ok M mx_bb mx_st depth 400 ops c sn Hn mx_proper mx_statics Vo Goo Eo) as (c0' & g0' & dim & shp' & g' & E0' & F' & Q2 & G2 & _ & _ & Q0).
      assert (Kc : Ok c0' = Ok c0) by (rewrite <- E0'; exact E0). apply Ok_inj in Kc. subst c0'. assert (g0' = g0) by congruence. assert (g' = g) by congruence. subst g0' g'.
      split; [exact (go_same _ _ _ _ _ _ G2)|]. rewrite (go_rad _ _ _ _ _ _ G2), <- (fr_rad _ _ _ _ _ F'). apply F. }
    destruct (Fr _ _ _ _ mx_valid_two mx_grid_two Eng2 H2) as (Sg2 & _). destruct (Fr _ _ _ _ mx_valid_four Go4 Eng4 H4) as (Sg4 & Rd4).
    destruct (covered_regular M mx_bb mx_st 1 g0 mx_proper F Cv) as (nx & ny & Rg & Lg & Mx & My). cbn [mx_bb x_min x_max y_min y_max] in Rg, Mx, My.
    assert (Hnx : (9 < nx)%nat) by (apply INR_lt; rewrite (INR_IZR_INZ 9); cbn; lra). assert (Hny : (9 < ny)%nat) by (apply INR_lt; rewrite (INR_IZR_INZ 9); cbn; lra).
    pose proof (regular_same _ _ _ _ _ _ _ Sg2 Rg) as Rg2. pose proof (regular_same _ _ _ _ _ _ _ Sg4 Rg) as Rg4.
    assert (Lg4 : length (g_cells (hg_grid g4)) = (ny * nx)%nat) by (destruct Sg4 as (_ & _ & Q & _); congruence).
    (* the removal that takes effect at once *)
    cbn [hpg_deregister] in R3, R4. apply Ok_inj in R3. subst g3. cbn [hpg_deregister hg_grid hg_bbox hg_rad hg_unc] in R4. apply rbind_ok in R4 as (gr4 & R4 & K). apply Ok_inj in K.
    assert (Dyn : dynamic_facts mx_two = [fact_of mx_he; fact_of mx_hp]) by reflexivity.
    assert (Ex : forall i x, cell_at (hg_grid g2) i = Some x -> exact_cell (dynamic_facts mx_two) x).
    { intros i x Hx. apply Ex2. unfold cell_at in Hx. destruct (nth_error _ _) as [o|] eqn:No; [|discriminate]. subst o. eapply nth_error_In. exact No. }
    rewrite Dyn in Ex. set (T := (9 * nx + 9)%nat) in *.
    (* the cell *)
    destruct (rg_at _ _ _ _ _ _ Rg2 9%nat 9%nat Hny Hnx) as (t2 & Et2 & Ct2 & _). fold T in Et2.
    assert (Ct2' : c_cen t2 = Pt (19/2) (19/2)) by (rewrite Ct2, !mx_mid, (INR_IZR_INZ 9); cbn; f_equal; lra).
    assert (St2 : exists t0, cell_at (hg_grid g0) T = Some t0 /\ same_frame t0 t2).
    { destruct Sg2 as (_ & _ & _ & Q). specialize (Q T). rewrite Et2 in Q. destruct (cell_at (hg_grid g0) T) as [t0|]; [|contradiction]. exists t0. auto. }
    destruct St2 as (t0 & Et0 & (Fc & Fs & _)). destruct (fr_cells _ _ _ _ _ F T t0 Et0) as (Sc0 & _).
    assert (Hs : 9 < fst (c_stat t2)) by (rewrite Fs; apply mx_static_value; [congruence|exact (sc_uni _ _ _ Sc0)]).
    assert (So : forall i t, snd (c_stat t2) <> PlacedItem i t).
    { rewrite Fs. apply (stat_owner mx_bb mx_st 400 g0 Eg0). unfold cell_at in Et0. destruct (nth_error _ _) as [o|] eqn:No in Et0; [|discriminate]. subst o. eapply nth_error_In. exact No. }
    destruct mx_target as (T1 & T2 & T3). cbv zeta in T1, T2, T3. rewrite <- Ct2' in T1, T2, T3.
    assert (Ow : snd (c_uni t2) = PlacedItem 2 1%nat).
    { destruct (Ex T t2 Et2) as (Ow & _ & Lo). specialize (Lo (fact_of mx_he) mx_ke (or_introl eq_refl) (or_introl eq_refl)). 
      destruct Ow as [Q|[[]|(f & k & [<-|[<-|[]]] & Fe & Hk & Fk)]].
      - exfalso. rewrite Q in Lo. lra.
      - symmetry. exact Fe.
      - exfalso. destruct Hk as [<-|[]]. fold mx_kp in Fk. lra. }
    assert (Et4 : exists t4, cell_at (hg_grid g4) T = Some t4 /\ c_uni t4 = c_stat t2 /\ c_cen t4 = c_cen t2).
    { destruct (on_cells_at _ _ _ R4 T t2 Et2) as (t4 & Q4 & Et4). apply dereg_none in Q4. rewrite Ow in Q4. cbn in Q4. exists t4. subst g4. cbn [hg_grid]. split; [exact Et4|]. subst t4. split; reflexivity. }
    destruct Et4 as (t4 & Et4 & Eu4 & Ect4).
    (* the wall *)
    assert (I4 : INR 4 = 4) by (rewrite INR_IZR_INZ; reflexivity).
    assert (Wl : forall r c, (r < ny)%nat -> cell_at (hg_grid g4) (r * nx + 4) = Some c -> fst (c_uni c) <= gap mx_kp (c_cen c)).
    { intros r c Hr Ec. destruct (rg_at _ _ _ _ _ _ Rg2 r 4%nat Hr ltac:(lia)) as (w & Ew & Cw & _). rewrite !mx_mid, I4 in Cw. replace (4 + / 2) with (9 / 2) in Cw by lra.
      destruct (mx_wall (INR r + / 2)) as (_ & G2 & _). cbv zeta in G2. rewrite <- Cw in G2.
      destruct (on_cells_at _ _ _ R4 _ w Ew) as (w' & Q4 & Ew'). subst g4. cbn [hg_grid] in Ec. rewrite Ew' in Ec. injection Ec as ->. apply dereg_none in Q4.
      destruct (Ex _ w Ew) as (Ow' & _ & Lo). specialize (Lo (fact_of mx_hp) mx_kp (or_intror (or_introl eq_refl)) (or_introl eq_refl)).
      destruct (memb ent_eqb (snd (c_uni w)) [PlacedItem 2 1%nat]) eqn:Mb; [|subst c; exact Lo]. exfalso.
      apply memb_ent in Mb as [Mb|[]]. destruct Ow' as [Q|[[]|(f & k & [<-|[<-|[]]] & Fe & Hk & Fk)]].
      - destruct Sg2 as (_ & _ & _ & Q'). specialize (Q' (r * nx + 4)%nat). rewrite Ew in Q'. destruct (cell_at (hg_grid g0) (r * nx + 4)) as [w0|] eqn:W0; [|contradiction]. destruct Q' as (_ & Fs' & _).
        refine (stat_owner mx_bb mx_st 400 g0 Eg0 w0 _ 2%nat 1%nat _); [|congruence].
        unfold cell_at in W0. destruct (nth_error _ _) as [o|] eqn:No in W0; [|discriminate]. subst o. eapply nth_error_In. exact No.
      - destruct Hk as [<-|[]]. fold mx_ke in Fk. lra.
      - rewrite <- Mb in Fe. discriminate. }
    pose proof (mx_register nx ny g4 g5 t4 Rg4 Lg4 Rd4 Hnx Hny Wl Et4 ltac:(rewrite Eu4; exact Hs) R5) as Et5. fold T in Et5.
    assert (Ns : ~ settled mx_n g5).
    { intros Q. specialize (Q t4). assert (K' : In (Some t4) (g_cells (hg_grid g5))) by (unfold cell_at in Et5; destruct (nth_error _ _) as [o|] eqn:No in Et5; [|discriminate]; subst o; eapply nth_error_In; exact No).
      specialize (Q K' mx_kn (or_introl eq_refl)). rewrite Eu4, Ect4 in Q. lra. }
    (* the final flush *)
    destruct (grid_dirty LinSearch_ok M mx_bb mx_st depth 400 mx_all c6 sn6 Hn mx_proper mx_statics mx_valid_all mx_grid_all Eng6) as (g6 & H6 & Eg6). cbn [pending mx_all mx_ops mx_two app] in Eg6.
    assert (Et6 : sn6 = [] /\ exists t6, cell_at (hg_grid g6) T = Some t6 /\ t6 = t4).
    { cbn [step] in S6. apply rbind_ok in S6 as (c' & S6 & K6). apply Ok_inj in K6. assert (sn6 = []) by congruence. assert (c' = c6) by congruence. subst c'. split; [assumption|].
      unfold cde_flush in S6. rewrite H5, D5 in S6. cbn [opt_hpg] in S6. apply rbind_ok in S6 as (og & S6 & K6'). apply Ok_inj in K6'. subst c6. apply rbind_ok in S6 as (g6' & S6 & K6'). apply Ok_inj in K6'. subst og. cbn [cd_hpg] in H6. injection H6 as ->.
      assert (Un5 : hg_unc g5 = [PlacedItem 1 0%nat]).
      { rewrite (register_unc _ _ _ R5), <- K. cbn [hg_unc]. rewrite (register_unc _ _ _ R2), (register_unc _ _ _ R1), (fr_unc _ _ _ _ _ F). reflexivity. }
      unfold hpg_flush, hpg_dirty in S6. rewrite Un5 in S6. apply rbind_ok in S6 as (gr6 & S6 & K6'). apply Ok_inj in K6'. subst g6. cbn [hg_grid].
      destruct (on_cells_at _ _ _ S6 T t4 Et5) as (t6 & Q6 & Et6). exists t6. split; [exact Et6|]. unfold cell_deregister in Q6. rewrite Eu4 in Q6.
      destruct (memb ent_eqb (snd (c_stat t2)) [PlacedItem 1 0%nat]) eqn:Mb; [|apply Ok_inj in Q6; congruence]. exfalso. apply memb_ent in Mb as [Mb|[]]. exact (So _ _ (eq_sym Mb)). }
    destruct Et6 as (-> & t6 & Et6 & ->).
    exists c0, c5, g5, c6, [], g6, t4. split; [exact E0|]. split; [congruence|]. split; [rewrite Ec0; intros g' [= <-]; exact Cv|]. split; [exact Eng5|]. split; [exact H5|]. split; [exact Ns|]. split.
    { intros Q. unfold mx_ops, mx_two in Q. cbn [app settles] in Q. destruct (Q _ S1) as (_ & Q1). destruct (Q1 _ S2) as (_ & Q2). destruct (Q2 _ S3) as (_ & Q3). destruct (Q3 _ S4) as (_ & Q4). destruct (Q4 _ S5) as (Q5 & _).
      exact (Ns (Q5 _ H5)). }
    split; [exact Eng6|]. split; [exact Eg6|]. split.
    - unfold cell_at in Et6. destruct (nth_error _ _) as [o|] eqn:No in Et6; [|discriminate]. subst o. eapply nth_error_In. exact No.
    - rewrite Eu4, Ect4. lra.
  Qed.

  Lemma mixed_refuted : exists (bb : rect R) (sts : list (hazard R nat)) (h1 h2 h3 : hazard R nat), let ops := [OReg h1; OReg h2; ODereg (h_ent h1) false; ODereg (h_ent h2) true; OReg h3] in
    proper bb /\ Forall static_hazard sts /\ sound_statics sts /\ framed bb (facts sts ops) /\ valid sts (ops ++ [OFlush]) /\ Forall grid_op ops /\ Forall (centred_op bb) ops /\
    feasible (a_obj (h_shape h1)) [] (facts sts []) /\ feasible (a_obj (h_shape h2)) [] (facts sts [OReg h1]) /\ feasible (a_obj (h_shape h3)) [] (facts sts (firstn 4 ops)) /\
    forall depth, exists c0, cde_new bb sts depth 400 = Ok c0 /\ cd_hpg c0 <> None /\ (forall g, cd_hpg c0 = Some g -> covered bb (hg_grid g)) /\ ~ settles (c0, []) ops /\
      (exists s, engine bb sts depth 400 ops = Ok s) /\ exists c sn g, engine bb sts depth 400 (ops ++ [OFlush]) = Ok (c, sn) /\ cde_hpg c = Ok (Some g) /\ ~ every_cell (exact_cell (dynamic_facts ops)) (hg_grid g).
  Proof.
    exists mx_bb, mx_st, mx_hp, mx_he, mx_hn. intros ops. change ops with mx_ops. destruct mx_feasible as (F1 & F2 & F3).
    split; [exact mx_proper|]. split; [exact mx_static|]. split; [exact mx_statics|]. split; [exact mx_framed|]. split; [exact mx_valid_all|]. split; [exact mx_grid_ops|].
    split; [pose proof mx_centred_all as K; apply Forall_app in K; apply K|]. split; [exact F1|]. split; [exact F2|]. split; [exact F3|].
    intros depth. destruct (mx_run depth) as (c0 & c5 & g5 & c & sn & g & ce & E0 & Ne & Cv & E5 & H5 & Ns & Nse & E6 & Eg & In' & Lt).
    exists c0. repeat (split; [assumption|]). split; [eexists; exact E5|]. exists c, sn, g. split; [exact E6|]. split; [exact Eg|].
    intros Q. destruct (Q ce In') as (_ & _ & Lo). specialize (Lo (fact_of mx_hn) mx_kn (or_introl eq_refl) (or_introl eq_refl)). lra.
  Qed.
End Mix.
