(** Rounding errors of the tests on segments. *)
From Coq Require Import ZArith Reals Lia Lra Psatz Bool List.
From Flocq Require Import Core IEEE754.BinarySingleNaN.
From Verif Require Import Base BaseProofs Num FloatModel FloatArithProofs GeoModel GeoSpec SimplSpec ParityProofs GeoPrimProofs FloatSpec FloatMarginSpec FloatGeoProofs.
Import ListNotations.
Local Open Scope R_scope.

Section Margin.
  Context {prec emax : Z} (Hp : Prec_gt_0 prec) (Hm : Prec_lt_emax prec emax) (umax : nat).
  Local Notation fl := (binary_float prec emax).
  Variable alm : fl -> fl -> bool.
  Local Notation emin := (3 - emax - prec)%Z.
  Local Notation rnd := (round radix2 (SpecFloat.fexp prec emax) ZnearestE).
  #[local] Instance NFm : Num fl := FloatNum prec emax Hp Hm umax alm.
  #[local] Existing Instance RNum.
  Local Notation v := (@B2R prec emax).
  Local Notation P m := (bpow radix2 m).
  Local Notation impt := (im_point v).
  Local Notation imed := (im_edge v).
  Local Notation imrc := (im_rect v).

  Lemma rnd_err m x : (emin + prec <= m)%Z -> Rabs x <= P m -> Rabs (rnd x) <= P m /\ Rabs (rnd x - x) <= P (m - prec - 1).
  Proof.
    intros Hl Hx.
    assert (Fm : generic_format radix2 (SpecFloat.fexp prec emax) (P m)).
    { change (generic_format radix2 (FLT_exp emin prec) (P m)). apply generic_format_FLT_bpow; [exact Hp|]. unfold Prec_gt_0 in Hp. lia. }
    split; [apply abs_round_le_generic; try typeclasses eauto; assumption|].
    destruct (Req_dec x 0) as [->|Nz].
    { rewrite round_0 by typeclasses eauto. rewrite Rminus_0_r, Rabs_R0. apply bpow_ge_0. }
    destruct (Rle_lt_or_eq_dec _ _ Hx) as [Hlt|Heq].
    - pose proof (error_le_half_ulp radix2 (SpecFloat.fexp prec emax) (fun x => negb (Z.even x)) x) as H. cbv zeta in H.
      assert (U : ulp radix2 (SpecFloat.fexp prec emax) x <= P (m - prec)).
      { rewrite ulp_neq_0 by exact Nz. apply bpow_le. unfold cexp, SpecFloat.fexp, SpecFloat.emin.
        pose proof (mag_le_bpow radix2 x m Nz Hlt). lia. }
      replace (P (m - prec - 1)) with (/ 2 * P (m - prec)).
      2: { replace (m - prec - 1)%Z with (-1 + (m - prec))%Z by lia. rewrite bpow_plus. reflexivity. }
      apply Rle_trans with (1 := H). lra.
    - assert (E : rnd x = x).
      { apply round_generic; [typeclasses eauto|]. unfold Rabs in Heq. destruct (Rcase_abs x).
        - replace x with (- P m) by lra. apply generic_format_opp, Fm.
        - rewrite Heq. exact Fm. }
      rewrite E, Rminus_diag_eq, Rabs_R0 by reflexivity. apply bpow_ge_0.
  Qed.
  (** [x] is finite, at most [2^m], and within [d] of [r] *)
  Definition ap (m : Z) (d : R) (x : fl) (r : R) : Prop := is_finite x = true /\ Rabs (v x) <= P m /\ Rabs (v x - r) <= d.
  Lemma ap_minus m d d' x y r s : ap m d x r -> ap m d' y s -> (emin + prec <= m + 1)%Z -> (m + 1 < emax)%Z ->
    ap (m + 1) (d + d' + P (m - prec)) (Bminus mode_NE x y) (r - s).
  Proof.
    intros (Fx & Bx & Ex) (Fy & By & Ey) Hl Hh.
    assert (Hb : Rabs (v x - v y) <= P (m + 1)).
    { rewrite bpow_plus. change (P 1) with 2. apply Rle_trans with (Rabs (v x) + Rabs (v y)); [|lra].
      unfold Rminus. rewrite <- (Rabs_Ropp (v y)). apply Rabs_triang. }
    destruct (rnd_err (m + 1) _ Hl Hb) as [Hr He].
    pose proof (Bminus_correct prec emax Hp Hm mode_NE x y Fx Fy) as HH. cbn [round_mode] in HH.
    rewrite Rlt_bool_true in HH by (apply Rle_lt_trans with (1 := Hr), bpow_lt; lia).
    destruct HH as (HR & HF & _). split; [exact HF|]. rewrite HR. split; [exact Hr|].
    replace (m + 1 - prec - 1)%Z with (m - prec)%Z in He by lia.
    replace (rnd (v x - v y) - (r - s)) with ((rnd (v x - v y) - (v x - v y)) + ((v x - r) + - (v y - s))) by ring.
    apply Rle_trans with (1 := Rabs_triang _ _). pose proof (Rabs_triang (v x - r) (- (v y - s))) as T. rewrite Rabs_Ropp in T. lra.
  Qed.
  Lemma ap_mult m d x y r s : ap m d x r -> ap m d y s -> Rabs r <= P m -> Rabs s <= P m -> (emin + prec <= m + m)%Z -> (m + m < emax)%Z ->
    ap (m + m) (2 * P m * d + P (m + m - prec - 1)) (Bmult mode_NE x y) (r * s).
  Proof.
    intros (Fx & Bx & Ex) (Fy & By & Ey) Br Bs Hl Hh.
    assert (Hb : Rabs (v x * v y) <= P (m + m)).
    { rewrite Rabs_mult, bpow_plus. apply Rmult_le_compat; try apply Rabs_pos; assumption. }
    destruct (rnd_err (m + m) _ Hl Hb) as [Hr He].
    pose proof (Bmult_correct prec emax Hp Hm mode_NE x y) as HH. cbn [round_mode] in HH.
    rewrite Rlt_bool_true in HH by (apply Rle_lt_trans with (1 := Hr), bpow_lt; lia).
    destruct HH as (HR & HF & _). rewrite Fx, Fy in HF. split; [exact HF|]. rewrite HR. split; [exact Hr|].
    replace (rnd (v x * v y) - r * s) with ((rnd (v x * v y) - v x * v y) + (v x * (v y - s) + (v x - r) * s)) by ring.
    apply Rle_trans with (1 := Rabs_triang _ _). pose proof (Rabs_triang (v x * (v y - s)) ((v x - r) * s)) as T.
    rewrite !Rabs_mult in T.
    assert (Rabs (v x) * Rabs (v y - s) <= P m * d) by (apply Rmult_le_compat; try apply Rabs_pos; assumption).
    assert (Rabs (v x - r) * Rabs s <= d * P m) by (apply Rmult_le_compat; try apply Rabs_pos; assumption). lra.
  Qed.

  Section Scale.
    Variable k : Z.
    Hypothesis Hk0 : (0 <= k)%Z.
    Hypothesis Hk : (2 * k + 3 < emax)%Z.
    Lemma plo m : (0 <= m)%Z -> (emin + prec <= m + 1)%Z.
    Proof. intros. unfold Prec_gt_0, Prec_lt_emax in *. lia. Qed.
    (** a difference of coordinates *)
    Lemma ap_diff x y : within k x -> within k y -> ap (k + 1) (P (k - prec)) (Bminus mode_NE x y) (v x - v y) /\ Rabs (v x - v y) <= P (k + 1).
    Proof.
      intros [Fx Bx] [Fy By]. split.
      - replace (P (k - prec)) with (0 + 0 + P (k - prec)) by ring.
        apply ap_minus; [split; [exact Fx|split; [exact Bx|rewrite Rminus_diag_eq, Rabs_R0 by reflexivity; lra]]|split; [exact Fy|split; [exact By|rewrite Rminus_diag_eq, Rabs_R0 by reflexivity; lra]]|apply plo, Hk0|lia].
      - rewrite bpow_plus. change (P 1) with 2. apply Rle_trans with (Rabs (v x) + Rabs (v y)); [|lra].
        unfold Rminus. rewrite <- (Rabs_Ropp (v y)). apply Rabs_triang.
    Qed.
    (** the error of a cross product of differences *)
    Definition er : R := P (2 * k + 4 - prec).
    Lemma er_pos : 0 < er. Proof. apply bpow_gt_0. Qed.
    Lemma margin_er : margin prec k = 4 * er.
    Proof. unfold margin, er. replace (2 * k + 6 - prec)%Z with (2 + (2 * k + 4 - prec))%Z by lia. rewrite bpow_plus. reflexivity. Qed.
    Lemma ap_cross a b c d a' b' c' d' : ap (k + 1) (P (k - prec)) a a' /\ Rabs a' <= P (k + 1) -> ap (k + 1) (P (k - prec)) b b' /\ Rabs b' <= P (k + 1) ->
      ap (k + 1) (P (k - prec)) c c' /\ Rabs c' <= P (k + 1) -> ap (k + 1) (P (k - prec)) d d' /\ Rabs d' <= P (k + 1) ->
      ap (2 * k + 3) er (Bminus mode_NE (Bmult mode_NE a b) (Bmult mode_NE c d)) (a' * b' - c' * d').
    Proof.
      intros [Ha Ba] [Hb Bb] [Hc Bc] [Hd Bd].
      pose proof (plo (2 * k) ltac:(lia)) as L.
      pose proof (ap_mult _ _ _ _ _ _ Ha Hb Ba Bb ltac:(lia) ltac:(lia)) as M1.
      pose proof (ap_mult _ _ _ _ _ _ Hc Hd Bc Bd ltac:(lia) ltac:(lia)) as M2.
      pose proof (ap_minus _ _ _ _ _ _ _ M1 M2 ltac:(lia) ltac:(lia)) as M3.
      replace (2 * k + 3)%Z with (k + 1 + (k + 1) + 1)%Z by lia.
      replace er with (2 * P (k + 1) * P (k - prec) + P (k + 1 + (k + 1) - prec - 1) + (2 * P (k + 1) * P (k - prec) + P (k + 1 + (k + 1) - prec - 1)) + P (k + 1 + (k + 1) - prec)); [exact M3|].
      unfold er. rewrite (Rmult_assoc 2), <- bpow_plus.
      replace (k + 1 + (k - prec))%Z with (1 + (2 * k - prec))%Z by lia. replace (k + 1 + (k + 1) - prec - 1)%Z with (1 + (2 * k - prec))%Z by lia.
      replace (k + 1 + (k + 1) - prec)%Z with (2 + (2 * k - prec))%Z by lia. replace (2 * k + 4 - prec)%Z with (4 + (2 * k - prec))%Z by lia.
      rewrite !(bpow_plus radix2 _ (2 * k - prec)). change (P 1) with 2. change (P 2) with 4. change (P 4) with 16. ring.
    Qed.

    (** *** quotients *)
    Lemma quot_in (x y : fl) : is_finite x = true -> v y <> 0 -> 0 <= v x / v y <= 1 ->
      Bleb (B754_zero false) (Bdiv mode_NE x y) = true /\ Bleb (Bdiv mode_NE x y) Bone = true.
    Proof.
      intros Fx Ny [Q0 Q1].
      assert (F1 : generic_format radix2 (SpecFloat.fexp prec emax) 1).
      { change 1 with (P 0). change (generic_format radix2 (FLT_exp emin prec) (P 0)). apply generic_format_FLT_bpow; [exact Hp|]. unfold Prec_gt_0, Prec_lt_emax in *. lia. }
      assert (R0 : 0 <= rnd (v x / v y)) by (apply round_ge_generic; try typeclasses eauto; [apply generic_format_0|exact Q0]).
      assert (R1 : rnd (v x / v y) <= 1) by (apply round_le_generic; try typeclasses eauto; assumption).
      pose proof (Bdiv_correct prec emax Hp Hm mode_NE x y Ny) as HH. cbn [round_mode] in HH.
      rewrite Rlt_bool_true in HH.
      2: { rewrite Rabs_pos_eq by exact R0. apply Rle_lt_trans with (1 := R1). change 1 with (P 0). apply bpow_lt. unfold Prec_gt_0, Prec_lt_emax in *. lia. }
      destruct HH as (HR & HF & _). rewrite Fx in HF. split.
      - rewrite fle_fin by (assumption || reflexivity). rewrite HR. apply Rleb_spec. exact R0.
      - rewrite fle_fin; [|assumption|apply is_finite_Bone]. rewrite HR, Bone_correct. apply Rleb_spec. exact R1.
    Qed.
    Lemma sign_neg (x : fl) : Bsign x = true -> is_finite x = true -> v x <= 0.
    Proof.
      destruct x as [s|s| |s m e H]; cbn [Bsign is_finite B2R]; intros E F; try discriminate; [lra|]. subst s.
      apply F2R_le_0. cbn. lia.
    Qed.
    Lemma sign_pos (x : fl) : Bsign x = false -> is_finite x = true -> 0 <= v x.
    Proof.
      destruct x as [s|s| |s m e H]; cbn [Bsign is_finite B2R]; intros E F; try discriminate; [lra|]. subst s.
      apply F2R_ge_0. cbn. lia.
    Qed.
    Lemma sign_quot (x y : fl) : is_finite x = true -> is_finite y = true -> v y <> 0 ->
      (xorb (Bsign x) (Bsign y) = true -> v x / v y <= 0) /\ (xorb (Bsign x) (Bsign y) = false -> 0 <= v x / v y).
    Proof.
      intros Fx Fy Ny. pose proof (sign_neg x) as X1. pose proof (sign_pos x) as X2. pose proof (sign_neg y) as Y1. pose proof (sign_pos y) as Y2.
      destruct (Bsign x), (Bsign y); cbn [xorb]; split; intros E; try discriminate.
      - specialize (X1 eq_refl Fx). specialize (Y1 eq_refl Fy). replace (v x / v y) with ((- v x) * / (- v y)) by (field; lra).
        apply Rmult_le_pos; [lra|]. left. apply Rinv_0_lt_compat. lra.
      - specialize (X1 eq_refl Fx). specialize (Y2 eq_refl Fy). assert (0 <= (- v x) * / v y); [|unfold Rdiv; lra].
        apply Rmult_le_pos; [lra|]. left. apply Rinv_0_lt_compat. lra.
      - specialize (X2 eq_refl Fx). specialize (Y1 eq_refl Fy). assert (0 <= v x * / (- v y)).
        { apply Rmult_le_pos; [lra|]. left. apply Rinv_0_lt_compat. lra. }
        replace (v x / v y) with (- (v x * / - v y)) by (field; lra). lra.
      - specialize (X2 eq_refl Fx). specialize (Y2 eq_refl Fy). apply Rmult_le_pos; [lra|]. left. apply Rinv_0_lt_compat. lra.
    Qed.
    Lemma big_quot (x y : fl) : is_finite x = true -> is_finite y = true -> v y <> 0 -> 1 + P (1 - prec) <= v x / v y -> (1 < prec)%Z ->
      Bleb (Bdiv mode_NE x y) Bone = false.
    Proof.
      intros Fx Fy Ny Q Hp1. pose proof (bpow_gt_0 radix2 (1 - prec)) as Pp.
      pose proof (Bdiv_correct prec emax Hp Hm mode_NE x y Ny) as HH. cbn [round_mode] in HH.
      destruct (Rlt_bool _ _) eqn:O.
      - destruct HH as (HR & HF & _). rewrite Fx in HF. rewrite fle_fin; [|assumption|apply is_finite_Bone]. rewrite HR, Bone_correct.
        assert (1 + P (1 - prec) <= rnd (v x / v y)).
        { apply round_ge_generic; [typeclasses eauto|typeclasses eauto| |exact Q].
          assert (HP : P (prec - 1) = IZR (2 ^ (prec - 1))) by (rewrite <- IZR_Zpower by lia; reflexivity).
          replace (1 + P (1 - prec)) with (IZR (2 ^ (prec - 1) + 1) * P (1 - prec)).
          - apply fmt; [exact Hp| |unfold Prec_lt_emax in Hm; lia]. rewrite Z.abs_eq by (pose proof (Z.pow_nonneg 2 (prec - 1)); lia).
            replace (2 ^ prec)%Z with (2 ^ (prec - 1) * 2)%Z; [pose proof (Z.pow_pos_nonneg 2 (prec - 1)); lia|].
            replace prec with (prec - 1 + 1)%Z at 2 by lia. rewrite Z.pow_add_r by lia. lia.
          - rewrite plus_IZR, <- HP, Rmult_plus_distr_r, <- bpow_plus. replace (prec - 1 + (1 - prec))%Z with 0%Z by lia. cbn. lra. }
        destruct (Rleb _ 1) eqn:E; [|reflexivity]. apply Rleb_spec in E. lra.
      - cbn [binary_overflow overflow_to_inf] in HH. destruct (sign_quot x y Fx Fy Ny) as [S1 _].
        destruct (xorb (Bsign x) (Bsign y)); [specialize (S1 eq_refl); lra|].
        unfold Bleb. rewrite HH. cbn [binary_overflow overflow_to_inf]. pose proof (@is_finite_Bone prec emax Hp Hm) as F1.
        destruct (@Bone prec emax Hp Hm) as [s|s| |s m e H]; try discriminate; reflexivity.
    Qed.
    Lemma neg_quot (x y : fl) : is_finite x = true -> is_finite y = true -> v y <> 0 -> v x / v y <= - P (1 - prec) -> (1 < prec)%Z ->
      Bleb (B754_zero false) (Bdiv mode_NE x y) = false.
    Proof.
      intros Fx Fy Ny Q Hp1. pose proof (bpow_gt_0 radix2 (1 - prec)) as Pp.
      pose proof (Bdiv_correct prec emax Hp Hm mode_NE x y Ny) as HH. cbn [round_mode] in HH.
      destruct (Rlt_bool _ _) eqn:O.
      - destruct HH as (HR & HF & _). rewrite Fx in HF. rewrite fle_fin; [|reflexivity|assumption]. rewrite HR. change (v (B754_zero false)) with 0.
        assert (rnd (v x / v y) <= - P (1 - prec)).
        { apply round_le_generic; [typeclasses eauto|typeclasses eauto| |exact Q]. apply generic_format_opp.
          change (generic_format radix2 (FLT_exp emin prec) (P (1 - prec))). apply generic_format_FLT_bpow; [exact Hp|]. unfold Prec_gt_0, Prec_lt_emax in *. lia. }
        destruct (Rleb 0 _) eqn:E; [|reflexivity]. apply Rleb_spec in E. lra.
      - cbn [binary_overflow overflow_to_inf] in HH. destruct (sign_quot x y Fx Fy Ny) as [_ S1].
        destruct (xorb (Bsign x) (Bsign y)); [|specialize (S1 eq_refl); lra].
        unfold Bleb. rewrite HH. reflexivity.
    Qed.

    (** *** two segments *)
    Lemma turn_nz m e p q : 0 <= m -> splits m e p q -> turn (es e) (ee e) p - turn (es e) (ee e) q <> 0.
    Proof. unfold splits, clear_left, clear_right. intros Hm0 [[A B]|[A B]]; lra. Qed.
    Lemma clear_touch m f g : 0 <= m -> clear_cross m f g -> touch f g /\ edet f g <> 0.
    Proof.
      intros Hm0 [A B]. pose proof (turn_nz _ _ _ _ Hm0 A) as NA. pose proof (turn_nz _ _ _ _ Hm0 B) as NB.
      destruct f as [[x1 y1] [x2 y2]], g as [[x3 y3] [x4 y4]]. unfold splits, clear_left, clear_right, edet, turn in *. cbn [px py es ee] in *.
      split; [|intros Z; apply NA; lra].
      set (p := (x4 - x3) * (y1 - y3) - (y4 - y3) * (x1 - x3)) in *. set (q := (x4 - x3) * (y2 - y3) - (y4 - y3) * (x2 - x3)) in *.
      set (r := (x2 - x1) * (y3 - y1) - (y2 - y1) * (x3 - x1)) in *. set (w := (x2 - x1) * (y4 - y1) - (y2 - y1) * (x4 - x1)) in *.
      assert (S1 : 0 <= p / (p - q) <= 1).
      { destruct A as [[A1 A2]|[A1 A2]].
        - split; [apply Rmult_le_pos; [lra|left; apply Rinv_0_lt_compat; lra]|]. apply Rmult_le_reg_r with (p - q); [lra|]. unfold Rdiv. rewrite Rmult_assoc, Rinv_l by lra. lra.
        - replace (p / (p - q)) with ((- p) / (q - p)) by (field; lra).
          split; [apply Rmult_le_pos; [lra|left; apply Rinv_0_lt_compat; lra]|]. apply Rmult_le_reg_r with (q - p); [lra|]. unfold Rdiv. rewrite Rmult_assoc, Rinv_l by lra. lra. }
      assert (S2 : 0 <= r / (r - w) <= 1).
      { destruct B as [[A1 A2]|[A1 A2]].
        - split; [apply Rmult_le_pos; [lra|left; apply Rinv_0_lt_compat; lra]|]. apply Rmult_le_reg_r with (r - w); [lra|]. unfold Rdiv. rewrite Rmult_assoc, Rinv_l by lra. lra.
        - replace (r / (r - w)) with ((- r) / (w - r)) by (field; lra).
          split; [apply Rmult_le_pos; [lra|left; apply Rinv_0_lt_compat; lra]|]. apply Rmult_le_reg_r with (w - r); [lra|]. unfold Rdiv. rewrite Rmult_assoc, Rinv_l by lra. lra. }
      exists (at_t (Ed (Pt x1 y1) (Pt x2 y2)) (p / (p - q))). split; [exists (p / (p - q)); split; [exact S1|reflexivity]|].
      exists (r / (r - w)). split; [exact S2|]. unfold at_t. cbn [px py es ee].
      assert (D : r - w = - (p - q)) by (unfold p, q, r, w; ring). rewrite D.
      f_equal; apply Rmult_eq_reg_r with (p - q); try exact NA; unfold Rdiv.
      - transitivity (x1 * (p - q) + p * (x2 - x1) * (/ (p - q) * (p - q))); [ring|]. rewrite Rinv_l by exact NA.
        transitivity (x3 * (p - q) + - r * (x4 - x3) * (/ (p - q) * (p - q))); [rewrite Rinv_l by exact NA; unfold p, q, r, w; ring|field; lra].
      - transitivity (y1 * (p - q) + p * (y2 - y1) * (/ (p - q) * (p - q))); [ring|]. rewrite Rinv_l by exact NA.
        transitivity (y3 * (p - q) + - r * (y4 - y3) * (/ (p - q) * (p - q))); [rewrite Rinv_l by exact NA; unfold p, q, r, w; ring|field; lra].
    Qed.
    Lemma wfin x : within k x -> fin x (v x).
    Proof. intros [F _]. split; [exact F|reflexivity]. Qed.
    Lemma abs_le a b d : Rabs (a - b) <= d -> b - d <= a <= b + d.
    Proof. intros H. apply Rabs_le_inv in H. lra. Qed.
    (** the numerators and the denominator with their errors *)
    Definition tn (f g : edge fl) : fl := fsub (fmul (fsub (px (ee f)) (px (ee g))) (fsub (py (ee g)) (py (es g)))) (fmul (fsub (py (ee f)) (py (ee g))) (fsub (px (ee g)) (px (es g)))).
    Definition td (f g : edge fl) : fl := fsub (fmul (fsub (px (ee f)) (px (es f))) (fsub (py (ee g)) (py (es g)))) (fmul (fsub (py (ee f)) (py (es f))) (fsub (px (ee g)) (px (es g)))).
    Definition un (f g : edge fl) : fl := fsub (fmul (fsub (px (ee f)) (px (ee g))) (fsub (py (ee f)) (py (es f)))) (fmul (fsub (py (ee f)) (py (ee g))) (fsub (px (ee f)) (px (es f)))).
    Lemma terms f g : edge_within k f -> edge_within k g ->
      ap (2 * k + 3) er (tn f g) (- turn (es (imed g)) (ee (imed g)) (ee (imed f))) /\
      ap (2 * k + 3) er (td f g) (turn (es (imed g)) (ee (imed g)) (es (imed f)) - turn (es (imed g)) (ee (imed g)) (ee (imed f))) /\
      ap (2 * k + 3) er (un f g) (turn (es (imed f)) (ee (imed f)) (ee (imed g))) /\
      turn (es (imed f)) (ee (imed f)) (ee (imed g)) - turn (es (imed f)) (ee (imed f)) (es (imed g)) =
        turn (es (imed g)) (ee (imed g)) (es (imed f)) - turn (es (imed g)) (ee (imed g)) (ee (imed f)).
    Proof.
      destruct f as [[x1 y1] [x2 y2]], g as [[x3 y3] [x4 y4]]. intros [[X1 Y1] [X2 Y2]] [[X3 Y3] [X4 Y4]].
      unfold tn, td, un, turn, im_edge, im_point. cbn [px py es ee] in *.
      pose proof (ap_cross _ _ _ _ _ _ _ _ (ap_diff _ _ X2 X4) (ap_diff _ _ Y4 Y3) (ap_diff _ _ Y2 Y4) (ap_diff _ _ X4 X3)) as A.
      pose proof (ap_cross _ _ _ _ _ _ _ _ (ap_diff _ _ X2 X1) (ap_diff _ _ Y4 Y3) (ap_diff _ _ Y2 Y1) (ap_diff _ _ X4 X3)) as B.
      pose proof (ap_cross _ _ _ _ _ _ _ _ (ap_diff _ _ X2 X4) (ap_diff _ _ Y2 Y1) (ap_diff _ _ Y2 Y4) (ap_diff _ _ X2 X1)) as C.
      split; [|split; [|split; [|ring]]].
      - match goal with |- ap _ _ _ ?r => match type of A with ap _ _ _ ?q => replace r with q by ring end end. exact A.
      - match goal with |- ap _ _ _ ?r => match type of B with ap _ _ _ ?q => replace r with q by ring end end. exact B.
      - match goal with |- ap _ _ _ ?r => match type of C with ap _ _ _ ?q => replace r with q by ring end end. exact C.
    Qed.
    Definition box_apart (f g : edge fl) : bool :=
      flt (fmin (e_xmax f) (e_xmax g)) (fmax (e_xmin f) (e_xmin g)) || flt (fmin (e_ymax f) (e_ymax g)) (fmax (e_ymin f) (e_ymin g)).
    Lemma ee_unfold f g : ee_collides f g =
      if box_apart f g then false else if feq (td f g) f0 || feq (td f g) f0 then false else
      (fle f0 (fdiv (tn f g) (td f g)) && fle (fdiv (tn f g) (td f g)) f1) && (fle f0 (fdiv (un f g) (td f g)) && fle (fdiv (un f g) (td f g)) f1).
    Proof.
      unfold ee_collides, edge_intersection. fold (box_apart f g). destruct (box_apart f g); [reflexivity|].
      fold (tn f g) (td f g) (un f g). destruct (feq (td f g) f0 || feq (td f g) f0); [reflexivity|]. destruct (_ && _); reflexivity.
    Qed.
    Lemma box_apart_exact f g : edge_within k f -> edge_within k g -> ee_collides (imed f) (imed g) = true -> box_apart f g = false.
    Proof.
      destruct f as [[x1 y1] [x2 y2]], g as [[x3 y3] [x4 y4]]. intros [[X1 Y1] [X2 Y2]] [[X3 Y3] [X4 Y4]]. cbn [px py es ee] in *.
      unfold ee_collides, edge_intersection, box_apart, e_xmax, e_xmin, e_ymax, e_ymin, im_edge, im_point. cbn [px py es ee].
      apply wfin in X1, X2, X3, X4, Y1, Y2, Y3, Y4. change NFm with (NFl Hp Hm umax alm).
      rewrite (fin_lt Hp Hm umax alm _ _ _ _ (fin_min Hp Hm umax alm _ _ _ _ (fin_max Hp Hm umax alm _ _ _ _ X1 X2) (fin_max Hp Hm umax alm _ _ _ _ X3 X4)) (fin_max Hp Hm umax alm _ _ _ _ (fin_min Hp Hm umax alm _ _ _ _ X1 X2) (fin_min Hp Hm umax alm _ _ _ _ X3 X4))).
      rewrite (fin_lt Hp Hm umax alm _ _ _ _ (fin_min Hp Hm umax alm _ _ _ _ (fin_max Hp Hm umax alm _ _ _ _ Y1 Y2) (fin_max Hp Hm umax alm _ _ _ _ Y3 Y4)) (fin_max Hp Hm umax alm _ _ _ _ (fin_min Hp Hm umax alm _ _ _ _ Y1 Y2) (fin_min Hp Hm umax alm _ _ _ _ Y3 Y4))).
      match goal with |- is_some (if ?b then _ else _) = _ -> _ => destruct b eqn:Eb end; [discriminate|].
      intros _. exact Eb.
    Qed.

    Lemma quot_ok (x y : fl) a b : ap (2 * k + 3) er x a -> ap (2 * k + 3) er y b -> (2 * er < a /\ a + 2 * er < b) \/ (a < - (2 * er) /\ b < a - 2 * er) ->
      v y <> 0 /\ fle f0 (fdiv x y) = true /\ fle (fdiv x y) f1 = true.
    Proof.
      intros (Fx & Bx & Ex) (Fy & By & Ey) H. apply abs_le in Ex, Ey. pose proof er_pos as Ep.
      assert (Ny : v y <> 0) by (destruct H; lra). split; [exact Ny|].
      apply quot_in; [exact Fx|exact Ny|]. destruct H as [[A B]|[A B]].
      - split; [apply Rmult_le_pos; [lra|left; apply Rinv_0_lt_compat; lra]|]. apply Rmult_le_reg_r with (v y); [lra|]. unfold Rdiv. rewrite Rmult_assoc, Rinv_l by lra. lra.
      - replace (v x / v y) with ((- v x) / (- v y)) by (field; lra).
        split; [apply Rmult_le_pos; [lra|left; apply Rinv_0_lt_compat; lra]|]. apply Rmult_le_reg_r with (- v y); [lra|]. unfold Rdiv. rewrite Rmult_assoc, Rinv_l by lra. lra.
    Qed.
    Lemma er_ulp y : Rabs (v y) <= P (2 * k + 3) -> P (1 - prec) * Rabs (v y) <= er.
    Proof.
      intros H. unfold er. replace (2 * k + 4 - prec)%Z with (1 - prec + (2 * k + 3))%Z by lia. rewrite bpow_plus.
      apply Rmult_le_compat_l; [apply bpow_ge_0|exact H].
    Qed.
    Lemma quot_bad (x y : fl) a b : (1 < prec)%Z -> ap (2 * k + 3) er x a -> ap (2 * k + 3) er y b -> (3 * er < a /\ b < a - 3 * er) \/ (a < - (3 * er) /\ a + 3 * er < b) ->
      v y <> 0 -> fle f0 (fdiv x y) && fle (fdiv x y) f1 = false.
    Proof.
      intros Hp1 (Fx & Bx & Ex) (Fy & By & Ey) H Ny. apply abs_le in Ex, Ey. pose proof er_pos as Ep. pose proof (er_ulp y By) as U.
      pose proof (bpow_gt_0 radix2 (1 - prec)) as Pp.
      change (fle (fdiv x y) f1) with (Bleb (Bdiv mode_NE x y) Bone). change (fle f0 (fdiv x y)) with (Bleb (B754_zero false) (Bdiv mode_NE x y)).
      destruct (Rlt_or_le 0 (v y)) as [Py|Py].
      - rewrite Rabs_pos_eq in U by lra. destruct H as [[A B]|[A B]].
        + rewrite (big_quot x y Fx Fy Ny); [apply andb_false_r| |exact Hp1].
          apply Rmult_le_reg_r with (v y); [exact Py|]. unfold Rdiv. rewrite Rmult_assoc, Rinv_l by exact Ny. lra.
        + rewrite (neg_quot x y Fx Fy Ny); [reflexivity| |exact Hp1].
          apply Rmult_le_reg_r with (v y); [exact Py|]. unfold Rdiv. rewrite Rmult_assoc, Rinv_l by exact Ny. lra.
      - assert (Qy : 0 < - v y) by lra. rewrite Rabs_left in U by lra. destruct H as [[A B]|[A B]].
        + rewrite (neg_quot x y Fx Fy Ny); [reflexivity| |exact Hp1]. replace (v x / v y) with ((- v x) / (- v y)) by (field; lra).
          apply Rmult_le_reg_r with (- v y); [exact Qy|]. unfold Rdiv. rewrite Rmult_assoc, Rinv_l by lra. lra.
        + rewrite (big_quot x y Fx Fy Ny); [apply andb_false_r| |exact Hp1]. replace (v x / v y) with ((- v x) / (- v y)) by (field; lra).
          apply Rmult_le_reg_r with (- v y); [exact Qy|]. unfold Rdiv. rewrite Rmult_assoc, Rinv_l by lra. lra.
    Qed.
    Lemma cross_found f g : edge_within k f -> edge_within k g -> clear_cross (margin prec k) (imed f) (imed g) -> ee_collides f g = true.
    Proof.
      intros Wf Wg C. rewrite margin_er in C. pose proof er_pos as Ep.
      assert (B : box_apart f g = false).
      { apply box_apart_exact; [exact Wf|exact Wg|]. apply ee_collides_iff. apply (clear_touch (4 * er)); [lra|exact C]. }
      rewrite ee_unfold, B. destruct (terms f g Wf Wg) as (TN & TD & UN & E). destruct C as [C1 C2].
      unfold splits, clear_left, clear_right in C1, C2.
      destruct (quot_ok _ _ _ _ TN TD) as (Nz & T0 & T1); [lra|]. rewrite <- E in TD.
      destruct (quot_ok _ _ _ _ UN TD) as (_ & U0 & U1); [lra|]. rewrite T0, T1, U0, U1.
      replace (feq (td f g) f0) with false; [reflexivity|]. symmetry.
      change (Beqb (td f g) (B754_zero false) = false). rewrite feq_fin; [|apply TD|reflexivity]. change (v (B754_zero false)) with 0.
      unfold Reqb. destruct (Req_EM_T _ _) as [Z|_]; [contradiction|reflexivity].
    Qed.
    Lemma miss_found f g : (1 < prec)%Z -> edge_within k f -> edge_within k g -> clear_miss (margin prec k) (imed f) (imed g) -> ee_collides f g = false.
    Proof.
      intros Hp1 Wf Wg C. rewrite margin_er in C. pose proof er_pos as Ep.
      rewrite ee_unfold. destruct (box_apart f g); [reflexivity|]. destruct (terms f g Wf Wg) as (TN & TD & UN & E).
      replace (feq (td f g) f0) with (Reqb (v (td f g)) 0).
      2: { change (Reqb (v (td f g)) 0 = Beqb (td f g) (B754_zero false)). rewrite feq_fin; [reflexivity|apply TD|reflexivity]. }
      unfold Reqb. destruct (Req_EM_T _ _) as [Z|Nz]; [reflexivity|]. cbn [orb].
      destruct C as [C|C]; unfold same_side, clear_left, clear_right in C.
      - rewrite (quot_bad _ _ _ _ Hp1 TN TD); [reflexivity|lra|exact Nz].
      - rewrite <- E in TD. rewrite (quot_bad _ _ _ _ Hp1 UN TD); [apply andb_false_r|lra|exact Nz].
    Qed.

    (** *** rectangles *)
    Lemma side_found (p : point fl) (e : edge fl) : point_within k p -> edge_within k e ->
      (clear_left (margin prec k) (imed e) (impt p) -> point_edge_relation p e = Lt) /\
      (clear_right (margin prec k) (imed e) (impt p) -> point_edge_relation p e = Gt).
    Proof.
      destruct p as [x y], e as [[x1 y1] [x2 y2]]. intros [X Y] [[X1 Y1] [X2 Y2]]. rewrite margin_er. pose proof er_pos as Ep.
      unfold clear_left, clear_right, turn, point_edge_relation, fcmp, im_edge, im_point. cbn [px py es ee] in *.
      destruct (ap_cross _ _ _ _ _ _ _ _ (ap_diff _ _ X X1) (ap_diff _ _ Y2 Y1) (ap_diff _ _ Y Y1) (ap_diff _ _ X2 X1)) as (F & _ & E).
      apply abs_le in E.
      match goal with |- context [flt ?a f0] => change (flt a f0) with (Bltb a (B754_zero false)); change (feq a f0) with (Beqb a (B754_zero false));
        assert (L : Bltb a (B754_zero false) = Rltb (v a) 0) by (rewrite flt_fin; [reflexivity|exact F|reflexivity]);
        assert (Q : Beqb a (B754_zero false) = Reqb (v a) 0) by (rewrite feq_fin; [reflexivity|exact F|reflexivity]); rewrite L, Q; set (w := v a) in * end.
      change (v (Bminus mode_NE (Bmult mode_NE (Bminus mode_NE x x1) (Bminus mode_NE y2 y1)) (Bmult mode_NE (Bminus mode_NE y y1) (Bminus mode_NE x2 x1)))) with w in E.
      split; intros H.
      - replace (Rltb w 0) with true; [reflexivity|]. symmetry. apply Rltb_spec. lra.
      - replace (Rltb w 0) with false by (symmetry; apply Rltb_nspec; lra). replace (Reqb w 0) with false; [reflexivity|].
        symmetry. unfold Reqb. destruct (Req_EM_T w 0); [lra|reflexivity].
    Qed.
    Lemma rect_corner (r : rect fl) i : rect_within k r -> point_within k (q4get (corners r) i).
    Proof. intros (A & B & C & D). destruct i as [|[|[|i]]]; split; assumption. Qed.
    Lemma rect_edge (r : rect fl) g : rect_within k r -> In g (r_edges r) -> edge_within k g.
    Proof.
      intros H Hg. unfold r_edges in Hg. destruct Hg as [<-|[<-|[<-|[<-|[]]]]]; split; cbn [es ee];
        [apply (rect_corner r 0)|apply (rect_corner r 1)|apply (rect_corner r 1)|apply (rect_corner r 2)|apply (rect_corner r 2)|apply (rect_corner r 3)|apply (rect_corner r 3)|apply (rect_corner r 0)]; exact H.
    Qed.
    Lemma splits_found (e : edge fl) (p q : point fl) : edge_within k e -> point_within k p -> point_within k q -> splits (margin prec k) (imed e) (impt p) (impt q) ->
      cmp_eqb (point_edge_relation p e) (point_edge_relation q e) = false /\ cmp_eqb (point_edge_relation q e) (point_edge_relation p e) = false.
    Proof.
      intros We Wp Wq [[A B]|[A B]].
      - rewrite (proj1 (side_found p e Wp We) A), (proj2 (side_found q e Wq We) B). split; reflexivity.
      - rewrite (proj2 (side_found p e Wp We) A), (proj1 (side_found q e Wq We) B). split; reflexivity.
    Qed.
    Lemma far_box (r : rect fl) (e : edge fl) : rect_within k r -> edge_within k e ->
      (flt (e_xmax (imed e)) (x_min (imrc r)) || flt (x_max (imrc r)) (e_xmin (imed e)) || flt (e_ymax (imed e)) (y_min (imrc r)) || flt (y_max (imrc r)) (e_ymin (imed e)))%bool =
      (flt (e_xmax e) (x_min r) || flt (x_max r) (e_xmin e) || flt (e_ymax e) (y_min r) || flt (y_max r) (e_ymin e))%bool.
    Proof.
      intros (A & C & D & E) [[X1 Y1] [X2 Y2]]. unfold e_xmax, e_xmin, e_ymax, e_ymin. cbn [px py es ee im_point im_edge im_rect x_min y_min x_max y_max].
      apply wfin in X1, X2, Y1, Y2, A, C, D, E. change NFm with (NFl Hp Hm umax alm).
      rewrite (fin_lt Hp Hm umax alm _ _ _ _ (fin_max Hp Hm umax alm _ _ _ _ X1 X2) A), (fin_lt Hp Hm umax alm _ _ _ _ D (fin_min Hp Hm umax alm _ _ _ _ X1 X2)),
        (fin_lt Hp Hm umax alm _ _ _ _ (fin_max Hp Hm umax alm _ _ _ _ Y1 Y2) C), (fin_lt Hp Hm umax alm _ _ _ _ E (fin_min Hp Hm umax alm _ _ _ _ Y1 Y2)). reflexivity.
    Qed.
    Lemma wrfin (r : rect fl) : rect_within k r -> rfin r.
    Proof. intros (A & B & C & D). repeat split; [apply A|apply B|apply C|apply D]. Qed.
    Lemma wpfin (p : point fl) : point_within k p -> pfin p.
    Proof. intros (A & B). split; [apply A|apply B]. Qed.
    Lemma hit_found (r : rect fl) (e : edge fl) : proper (imrc r) -> rect_within k r -> edge_within k e -> clear_hit (margin prec k) (imrc r) (imed e) -> re_collides r e = true.
    Proof.
      intros Pr Wr We H. pose proof er_pos as Ep. pose proof margin_er as Me.
      assert (Hx : exists p, on_seg (imed e) p /\ in_rect (imrc r) p).
      { destruct H as [H|[H|(g & Hg & C)]].
        - exists (es (imed e)). split; [|exact H]. exists 0. split; [lra|]. unfold at_t. destruct (es (imed e)) as [a b]. cbn [px py]. f_equal; ring.
        - exists (ee (imed e)). split; [|exact H]. exists 1. split; [lra|]. unfold at_t. destruct (ee (imed e)) as [a b]. cbn [px py]. f_equal; ring.
        - destruct (clear_touch (margin prec k) (imed e) g ltac:(lra) C) as [(p & A & B) _]. exists p. split; [exact A|]. apply (r_edges_in (imrc r) g p Pr Hg B). }
      apply re_collides_iff in Hx; [|exact Pr]. unfold re_collides in *. rewrite (far_box r e Wr We) in Hx.
      match goal with |- (if ?b then _ else _) = _ => destruct b end; [discriminate Hx|].
      change (es (imed e)) with (impt (es e)) in *. change (ee (imed e)) with (impt (ee e)) in *.
      rewrite <- !(rp_fin Hp Hm umax alm) by (apply wrfin, Wr || apply wpfin, We).
      destruct (rp_collides (imrc r) (impt (es e)) || rp_collides (imrc r) (impt (ee e))) eqn:Er; [reflexivity|].
      destruct H as [H|[H|(g & Hg & C)]].
      - apply rp_collides_iff in H. change (es (imed e)) with (impt (es e)) in H. rewrite H in Er. discriminate.
      - apply rp_collides_iff in H. change (ee (imed e)) with (impt (ee e)) in H. rewrite H, orb_true_r in Er. discriminate.
      - replace (r_edges (imrc r)) with (map imed (r_edges r)) in Hg by reflexivity. apply in_map_iff in Hg as (g' & <- & Hg').
        assert (Sp : cmp_eqb (qa (q4map (fun c => point_edge_relation c e) (corners r))) (qb (q4map (fun c => point_edge_relation c e) (corners r))) &&
                     cmp_eqb (qb (q4map (fun c => point_edge_relation c e) (corners r))) (qc (q4map (fun c => point_edge_relation c e) (corners r))) &&
                     cmp_eqb (qc (q4map (fun c => point_edge_relation c e) (corners r))) (qd (q4map (fun c => point_edge_relation c e) (corners r))) = false).
        { destruct C as [_ C]. change (es (imed g')) with (impt (es g')) in C. change (ee (imed g')) with (impt (ee g')) in C.
          pose proof (rect_edge r g' Wr Hg') as Wg. destruct (splits_found e _ _ We (proj1 Wg) (proj2 Wg) C) as [S1 S2].
          unfold r_edges in Hg'. cbn [q4map qa qb qc qd].
          destruct Hg' as [<-|[<-|[<-|[<-|[]]]]]; cbn [es ee] in S1, S2; rewrite ?S1, ?andb_false_r; try reflexivity.
          destruct (point_edge_relation (qa (corners r)) e), (point_edge_relation (qb (corners r)) e), (point_edge_relation (qc (corners r)) e), (point_edge_relation (qd (corners r)) e); cbn in *; congruence. }
        cbv zeta. rewrite Sp. apply existsb_exists. exists g'. split; [exact Hg'|]. apply cross_found; [exact We|exact (rect_edge r g' Wr Hg')|exact C].
    Qed.
    Lemma rect_missed (r : rect fl) (e : edge fl) : rect_within k r -> edge_within k e ->
      (forall c, In c (q4list (corners (imrc r))) -> clear_left (margin prec k) (imed e) c) \/ (forall c, In c (q4list (corners (imrc r))) -> clear_right (margin prec k) (imed e) c) ->
      ~ in_rect (imrc r) (es (imed e)) -> ~ in_rect (imrc r) (ee (imed e)) -> re_collides r e = false.
    Proof.
      intros Wr We H N1 N2. unfold re_collides. match goal with |- (if ?b then _ else _) = _ => destruct b end; [reflexivity|].
      rewrite <- !(rp_fin Hp Hm umax alm) by (apply wrfin, Wr || apply wpfin, We).
      destruct (rp_collides (imrc r) (impt (es e))) eqn:E1; [apply rp_collides_iff in E1; contradiction|].
      destruct (rp_collides (imrc r) (impt (ee e))) eqn:E2; [apply rp_collides_iff in E2; contradiction|]. cbn [orb q4map qa qb qc qd].
      replace (q4list (corners (imrc r))) with (map impt (q4list (corners r))) in H by reflexivity.
      assert (Q : exists s, forall i, (i < 4)%nat -> point_edge_relation (q4get (corners r) i) e = s).
      { destruct H as [H|H]; [exists Lt|exists Gt]; intros i Hi.
        - apply (side_found _ e (rect_corner r i Wr) We), H, in_map. destruct i as [|[|[|[|i]]]]; cbn; auto; lia.
        - apply (side_found _ e (rect_corner r i Wr) We), H, in_map. destruct i as [|[|[|[|i]]]]; cbn; auto; lia. }
      destruct Q as (s & Hs). pose proof (Hs 0%nat ltac:(lia)) as S0. pose proof (Hs 1%nat ltac:(lia)) as S1. pose proof (Hs 2%nat ltac:(lia)) as S2. pose proof (Hs 3%nat ltac:(lia)) as S3.
      cbn [q4get] in *. rewrite S0, S1, S2, S3. destruct s; reflexivity.
    Qed.
  End Scale.
End Margin.
