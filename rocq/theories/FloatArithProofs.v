(** Exact floating point arithmetic on a grid: numbers that are multiples of [2^e] and not
    too large are added, subtracted and multiplied without rounding, and the comparison of
    a quotient with 0 and 1 is that of the exact quotient. *)
From Coq Require Import ZArith Reals Lia Lra Psatz Bool.
From Flocq Require Import Core IEEE754.BinarySingleNaN.
From Verif Require Import Num FloatModel.
Local Open Scope R_scope.

Section Arith.
  Context {prec emax : Z} (Hp : Prec_gt_0 prec) (Hm : Prec_lt_emax prec emax).
  Local Notation fl := (binary_float prec emax).
  Local Notation emin := (3 - emax - prec)%Z.
  Local Notation rnd := (round radix2 (SpecFloat.fexp prec emax) ZnearestE).

  (** [x] is finite, its value is [r], a multiple of [2^e] of at most [B] units *)
  Definition ex (e B : Z) (x : fl) (r : R) : Prop :=
    is_finite x = true /\ B2R x = r /\ exists n, r = IZR n * bpow radix2 e /\ (Z.abs n <= B)%Z.

  Lemma fmt n e : (Z.abs n <= 2 ^ prec)%Z -> (emin <= e)%Z ->
    generic_format radix2 (SpecFloat.fexp prec emax) (IZR n * bpow radix2 e).
  Proof.
    intros Hn He. unfold SpecFloat.fexp, SpecFloat.emin.
    destruct (Z.eq_dec (Z.abs n) (2 ^ prec)) as [E|E].
    - change (fun e0 => Z.max (e0 - prec) emin) with (FLT_exp emin prec).
      assert (Hn' : IZR n = bpow radix2 prec \/ IZR n = - bpow radix2 prec).
      { assert (P : bpow radix2 prec = IZR (2 ^ prec)).
        { rewrite <- IZR_Zpower by (unfold Prec_gt_0 in Hp; lia). reflexivity. }
        rewrite P, <- opp_IZR. destruct (Z.abs_spec n) as [[_ A]|[_ A]]; rewrite A in E; [left|right]; f_equal; lia. }
      assert (Hb : generic_format radix2 (FLT_exp emin prec) (bpow radix2 (prec + e))).
      { apply generic_format_FLT_bpow; [exact Hp|]. unfold Prec_gt_0 in Hp. lia. }
      rewrite bpow_plus in Hb.
      destruct Hn' as [-> | ->]; [exact Hb|].
      rewrite Ropp_mult_distr_l_reverse. apply generic_format_opp, Hb.
    - change (fun e0 => Z.max (e0 - prec) emin) with (FLT_exp emin prec). apply generic_format_FLT. exists (Float radix2 n e); cbn [Fnum Fexp]; [reflexivity| |lia]. change (radix2 ^ prec)%Z with (2 ^ prec)%Z. lia.
  Qed.
  Lemma small n e : (Z.abs n <= 2 ^ prec)%Z -> (prec + e < emax)%Z -> Rabs (IZR n * bpow radix2 e) < bpow radix2 emax.
  Proof.
    intros Hn He. rewrite Rabs_mult, (Rabs_pos_eq (bpow _ _)) by apply bpow_ge_0.
    apply Rle_lt_trans with (bpow radix2 prec * bpow radix2 e).
    - apply Rmult_le_compat_r; [apply bpow_ge_0|]. rewrite <- abs_IZR.
      replace (bpow radix2 prec) with (IZR (2 ^ prec)); [apply IZR_le, Hn|].
      rewrite <- IZR_Zpower by (unfold Prec_gt_0 in Hp; lia). reflexivity.
    - rewrite <- bpow_plus. apply bpow_lt. lia.
  Qed.
  Lemma rnd_grid n e : (Z.abs n <= 2 ^ prec)%Z -> (emin <= e)%Z -> rnd (IZR n * bpow radix2 e) = IZR n * bpow radix2 e.
  Proof. intros. apply round_generic; [typeclasses eauto|apply fmt; assumption]. Qed.
  Local Ltac step H n e Hn :=
    pose proof (H) as HH; cbn [round_mode] in HH;
    match type of HH with context [Rlt_bool (Rabs (rnd ?x)) _] =>
      replace x with (IZR n * bpow radix2 e) in HH; [rewrite (rnd_grid n e Hn) in HH by lia; rewrite Rlt_bool_true in HH by (apply small; [exact Hn|lia])|] end.

  Lemma ex_plus e A B x y r s : ex e A x r -> ex e B y s -> (emin <= e)%Z -> (prec + e < emax)%Z -> (A + B <= 2 ^ prec)%Z ->
    ex e (A + B) (Bplus mode_NE x y) (r + s).
  Proof.
    intros (Fx & Ex & n & En & Bn) (Fy & Ey & m & Em & Bm) Hlo Hhi HB.
    assert (Hn : (Z.abs (n + m) <= 2 ^ prec)%Z) by lia.
    step (Bplus_correct prec emax Hp Hm mode_NE x y Fx Fy) (n + m)%Z e Hn.
    - destruct HH as (HR & HF & _). split; [exact HF|]. split; [rewrite HR, plus_IZR; subst r s; rewrite En, Em; ring|].
      exists (n + m)%Z. split; [rewrite plus_IZR; subst; rewrite En, Em; ring|lia].
    - rewrite plus_IZR, Ex, Ey, En, Em. ring.
  Qed.
  Lemma ex_minus e A B x y r s : ex e A x r -> ex e B y s -> (emin <= e)%Z -> (prec + e < emax)%Z -> (A + B <= 2 ^ prec)%Z ->
    ex e (A + B) (Bminus mode_NE x y) (r - s).
  Proof.
    intros (Fx & Ex & n & En & Bn) (Fy & Ey & m & Em & Bm) Hlo Hhi HB.
    assert (Hn : (Z.abs (n - m) <= 2 ^ prec)%Z) by lia.
    step (Bminus_correct prec emax Hp Hm mode_NE x y Fx Fy) (n - m)%Z e Hn.
    - destruct HH as (HR & HF & _). split; [exact HF|]. split; [rewrite HR, minus_IZR; subst r s; rewrite En, Em; ring|].
      exists (n - m)%Z. split; [rewrite minus_IZR; subst; rewrite En, Em; ring|lia].
    - rewrite minus_IZR, Ex, Ey, En, Em. ring.
  Qed.
  Lemma ex_mult e e' A B x y r s : ex e A x r -> ex e' B y s -> (emin <= e + e')%Z -> (prec + (e + e') < emax)%Z -> (A * B <= 2 ^ prec)%Z ->
    ex (e + e') (A * B) (Bmult mode_NE x y) (r * s).
  Proof.
    intros (Fx & Ex & n & En & Bn) (Fy & Ey & m & Em & Bm) Hlo Hhi HB.
    assert (Hnm : (Z.abs (n * m) <= A * B)%Z). { rewrite Z.abs_mul. apply Z.mul_le_mono_nonneg; lia. }
    assert (Hn : (Z.abs (n * m) <= 2 ^ prec)%Z) by lia.
    step (Bmult_correct prec emax Hp Hm mode_NE x y) (n * m)%Z (e + e')%Z Hn.
    - destruct HH as (HR & HF & _). rewrite Fx, Fy in HF. split; [exact HF|]. split; [rewrite HR, mult_IZR, bpow_plus; subst r s; rewrite En, Em; ring|].
      exists (n * m)%Z. split; [rewrite mult_IZR, bpow_plus; subst; rewrite En, Em; ring|exact Hnm].
    - rewrite mult_IZR, bpow_plus, Ex, Ey, En, Em. ring.
  Qed.
  (** halving an even number of units *)
  Lemma ex_half e A x r : ex (e + 1) A x r -> (emin <= e)%Z -> (prec + e < emax)%Z -> (A <= 2 ^ prec)%Z -> (1 < prec)%Z ->
    ex e A (Bdiv mode_NE x (Bplus mode_NE Bone Bone)) (r / (1 + 1)).
  Proof.
    intros (Fx & Ex & n & En & Bn) Hlo Hhi HB Hp1.
    assert (E1 : ex 0 1 Bone 1).
    { split; [apply is_finite_Bone|]. split; [apply Bone_correct|]. exists 1%Z. split; [cbn; lra|reflexivity]. }
    assert (E2 : ex 0 (1 + 1) (Bplus mode_NE Bone Bone) (1 + 1)).
    { apply ex_plus; [exact E1|exact E1| | |]; unfold Prec_lt_emax, Prec_gt_0 in *; try lia.
      change (1 + 1)%Z with (2 ^ 1)%Z. apply Z.pow_le_mono_r; lia. }
    destruct E2 as (F2 & V2 & _).
    assert (Hn : (Z.abs n <= 2 ^ prec)%Z) by lia.
    assert (Hr : r / (1 + 1) = IZR n * bpow radix2 e).
    { rewrite En, bpow_plus. change (bpow radix2 1) with 2. field. }
    assert (H2 : B2R (Bplus mode_NE Bone Bone) <> 0) by (rewrite V2; lra).
    step (Bdiv_correct prec emax Hp Hm mode_NE x (Bplus mode_NE Bone Bone) H2) n e Hn.
    - destruct HH as (HR & HF & _). rewrite Fx in HF. split; [exact HF|]. split; [rewrite HR, Hr; reflexivity|].
      exists n. split; [exact Hr|exact Bn].
    - rewrite Ex, V2, Hr. reflexivity.
  Qed.
  Lemma ex_le e A x r B : ex e A x r -> (A <= B)%Z -> ex e B x r.
  Proof. intros (F & E & n & En & Hn) H. split; [exact F|]. split; [exact E|]. exists n. split; [exact En|lia]. Qed.
  Lemma ex_fine e k A x r : ex (e + k) A x r -> (0 <= k)%Z -> ex e (A * 2 ^ k) x r.
  Proof.
    intros (F & E & n & En & Hn) H. split; [exact F|]. split; [exact E|]. exists (n * 2 ^ k)%Z. split.
    - rewrite En, bpow_plus, mult_IZR. change (2 ^ k)%Z with (radix2 ^ k)%Z. rewrite (IZR_Zpower radix2 k H). ring.
    - rewrite Z.abs_mul, (Z.abs_eq (2 ^ k)) by (apply Z.pow_nonneg; lia). apply Z.mul_le_mono_nonneg_r; [apply Z.pow_nonneg; lia|exact Hn].
  Qed.

  (** comparisons are exact on finite numbers *)
  Lemma flt_fin (x y : fl) : is_finite x = true -> is_finite y = true -> Bltb x y = Rltb (B2R x) (B2R y).
  Proof.
    intros Fx Fy. rewrite Bltb_correct by assumption. unfold Rltb.
    destruct (Rlt_dec _ _); [apply Rlt_bool_true|apply Rlt_bool_false]; lra.
  Qed.
  Lemma fle_fin (x y : fl) : is_finite x = true -> is_finite y = true -> Bleb x y = Rleb (B2R x) (B2R y).
  Proof.
    intros Fx Fy. rewrite Bleb_correct by assumption. unfold Rleb.
    destruct (Rle_dec _ _); [apply Rle_bool_true|apply Rle_bool_false]; lra.
  Qed.
  Lemma feq_fin (x y : fl) : is_finite x = true -> is_finite y = true -> Beqb x y = Reqb (B2R x) (B2R y).
  Proof.
    intros Fx Fy. rewrite Beqb_correct by assumption. unfold Reqb.
    destruct (Req_EM_T _ _); [apply Req_bool_true|apply Req_bool_false]; assumption.
  Qed.
  Lemma fin_nan (x : fl) : is_finite x = true -> is_nan x = false.
  Proof. now destruct x. Qed.
  Lemma fmin_fin (x y : fl) : is_finite x = true -> is_finite y = true ->
    is_finite (fl_min prec emax x y) = true /\ B2R (fl_min prec emax x y) = Rmin (B2R x) (B2R y) /\ (fl_min prec emax x y = x \/ fl_min prec emax x y = y).
  Proof.
    intros Fx Fy. unfold fl_min. rewrite (fin_nan _ Fx), (fin_nan _ Fy), (flt_fin y x Fy Fx). unfold Rltb, Rmin.
    destruct (Rlt_dec _ _), (Rle_dec _ _); try lra; repeat split; auto; lra.
  Qed.
  Lemma fmax_fin (x y : fl) : is_finite x = true -> is_finite y = true ->
    is_finite (fl_max prec emax x y) = true /\ B2R (fl_max prec emax x y) = Rmax (B2R x) (B2R y) /\ (fl_max prec emax x y = x \/ fl_max prec emax x y = y).
  Proof.
    intros Fx Fy. unfold fl_max. rewrite (fin_nan _ Fx), (fin_nan _ Fy), (flt_fin x y Fx Fy). unfold Rltb, Rmax.
    destruct (Rlt_dec _ _), (Rle_dec _ _); try lra; repeat split; auto; lra.
  Qed.

  (** a quotient of two numbers of the grid is compared with 0 and 1 as the exact quotient is *)
  Lemma quot_cmp e A x y r s : ex e A x r -> ex e A y s -> (emin <= e)%Z -> s <> 0 -> (A <= 2 ^ (prec - 1))%Z -> (1 < prec)%Z ->
    is_finite (Bdiv mode_NE x y) = true /\
    Bleb (B754_zero false) (Bdiv mode_NE x y) = Rleb 0 (r / s) /\ Bleb (Bdiv mode_NE x y) Bone = Rleb (r / s) 1.
  Proof.
    intros (Fx & Ex & n & En & Bn) (Fy & Ey & m & Em & Bm) Hlo Hs HA Hp1.
    assert (Hm0 : (m <> 0)%Z). { intros ->. apply Hs. rewrite Em. lra. }
    assert (Hb : bpow radix2 e <> 0) by (apply Rgt_not_eq, bpow_gt_0).
    assert (Hm1 : 1 <= Rabs (IZR m)). { rewrite <- abs_IZR. apply IZR_le. lia. }
    assert (Hq : r / s = IZR n / IZR m). { rewrite En, Em. field. split; [|exact Hb]. apply IZR_neq, Hm0. }
    assert (HP : bpow radix2 (prec - 1) = IZR (2 ^ (prec - 1))).
    { rewrite <- IZR_Zpower by lia. reflexivity. }
    assert (Hnm : Rabs (IZR n) <= bpow radix2 (prec - 1) /\ Rabs (IZR m) <= bpow radix2 (prec - 1)).
    { rewrite HP, <- !abs_IZR. split; apply IZR_le; lia. }
    destruct Hnm as [Hn2 Hm2].
    assert (Habs : Rabs (r / s) <= bpow radix2 (prec - 1)).
    { rewrite Hq. unfold Rdiv. rewrite Rabs_mult, Rabs_inv.
      apply Rle_trans with (Rabs (IZR n) * 1); [|lra]. apply Rmult_le_compat_l; [apply Rabs_pos|].
      rewrite <- Rinv_1. apply Rinv_le_contravar; lra. }
    assert (Fb : forall k, (k <= 0)%Z -> (emin <= k)%Z -> generic_format radix2 (SpecFloat.fexp prec emax) (bpow radix2 k)).
    { intros k Hk Hk'. replace (bpow radix2 k) with (IZR 1 * bpow radix2 k) by lra. apply fmt; [|exact Hk'].
      change (Z.abs 1) with (2 ^ 0)%Z. apply Z.pow_le_mono_r; lia. }
    assert (Fbig : generic_format radix2 (SpecFloat.fexp prec emax) (bpow radix2 (prec - 1))).
    { rewrite HP. replace (IZR (2 ^ (prec - 1))) with (IZR (2 ^ (prec - 1)) * bpow radix2 0) by (cbn; lra).
      apply fmt; [|unfold Prec_lt_emax in Hm; lia]. rewrite Z.abs_eq by (apply Z.pow_nonneg; lia). apply Z.pow_le_mono_r; lia. }
    pose proof (Bdiv_correct prec emax Hp Hm mode_NE x y) as HH. cbn [round_mode] in HH. rewrite Ex, Ey in HH. specialize (HH Hs).
    assert (Hr : Rabs (rnd (r / s)) <= bpow radix2 (prec - 1)).
    { apply abs_round_le_generic; [typeclasses eauto|typeclasses eauto|exact Fbig|exact Habs]. }
    rewrite Rlt_bool_true in HH by (apply Rle_lt_trans with (1 := Hr), bpow_lt; unfold Prec_lt_emax in Hm; lia).
    destruct HH as (HR & HF & _). rewrite Fx in HF. split; [exact HF|].
    assert (Hinv : / Rabs (IZR m) >= bpow radix2 (1 - prec)).
    { replace (1 - prec)%Z with (- (prec - 1))%Z by lia. rewrite bpow_opp. apply Rle_ge, Rinv_le_contravar; lra. }
    split.
    - rewrite fle_fin by (assumption || reflexivity). rewrite HR. change (B2R (B754_zero false)) with 0. unfold Rleb.
      assert (R0 : rnd 0 = 0) by (apply round_0; typeclasses eauto).
      destruct (Rle_dec 0 (r / s)) as [H|H].
      + destruct (Rle_dec _ _) as [|C]; [reflexivity|]. exfalso. apply C. rewrite <- R0. apply round_le; [typeclasses eauto|typeclasses eauto|exact H].
      + destruct (Rle_dec _ _) as [C|]; [|reflexivity]. exfalso.
        assert (Hlt : r / s <= - bpow radix2 (1 - prec)).
        { assert (Rabs (r / s) >= bpow radix2 (1 - prec)).
          { rewrite Hq. unfold Rdiv. rewrite Rabs_mult, Rabs_inv.
            assert (n <> 0)%Z. { intros ->. apply H. rewrite Hq. unfold Rdiv. lra. }
            assert (1 <= Rabs (IZR n)) by (rewrite <- abs_IZR; apply IZR_le; lia).
            apply Rle_ge. apply Rle_trans with (1 * / Rabs (IZR m)); [lra|]. apply Rmult_le_compat_r; [|lra].
            left. apply Rinv_0_lt_compat. lra. }
          rewrite Rabs_left in H0 by lra. lra. }
        assert (rnd (r / s) <= - bpow radix2 (1 - prec)).
        { apply round_le_generic; [typeclasses eauto|typeclasses eauto| |exact Hlt]. apply generic_format_opp, Fb; unfold Prec_lt_emax in Hm; lia. }
        pose proof (bpow_gt_0 radix2 (1 - prec)). lra.
    - rewrite fle_fin; [|assumption|apply is_finite_Bone]. rewrite HR, Bone_correct. unfold Rleb.
      assert (F1 : generic_format radix2 (SpecFloat.fexp prec emax) 1).
      { change 1 with (bpow radix2 0). apply Fb; unfold Prec_lt_emax in Hm; lia. }
      destruct (Rle_dec (r / s) 1) as [H|H].
      + destruct (Rle_dec _ _) as [|C]; [reflexivity|]. exfalso. apply C.
        apply round_le_generic; [typeclasses eauto|typeclasses eauto|exact F1|exact H].
      + destruct (Rle_dec _ _) as [C|]; [|reflexivity]. exfalso.
        assert (Hge : 1 + bpow radix2 (1 - prec) <= r / s).
        { assert (Q : r / s - 1 = IZR (n - m) / IZR m) by (rewrite Hq, minus_IZR; field; apply IZR_neq, Hm0).
          assert (Rabs (r / s - 1) >= bpow radix2 (1 - prec)).
          { rewrite Q. unfold Rdiv. rewrite Rabs_mult, Rabs_inv.
            assert (n - m <> 0)%Z. { intros Z0. rewrite Z0 in Q. unfold Rdiv in Q. lra. }
            assert (1 <= Rabs (IZR (n - m))) by (rewrite <- abs_IZR; apply IZR_le; lia).
            apply Rle_ge. apply Rle_trans with (1 * / Rabs (IZR m)); [lra|]. apply Rmult_le_compat_r; [|lra].
            left. apply Rinv_0_lt_compat. lra. }
          rewrite Rabs_pos_eq in H0 by lra. lra. }
        assert (1 + bpow radix2 (1 - prec) <= rnd (r / s)).
        { apply round_ge_generic; [typeclasses eauto|typeclasses eauto| |exact Hge].
          replace (1 + bpow radix2 (1 - prec)) with (IZR (2 ^ (prec - 1) + 1) * bpow radix2 (1 - prec)).
          - apply fmt; [|unfold Prec_lt_emax in Hm; lia]. rewrite Z.abs_eq by (pose proof (Z.pow_nonneg 2 (prec - 1)); lia).
            replace (2 ^ prec)%Z with (2 ^ (prec - 1) * 2)%Z; [pose proof (Z.pow_pos_nonneg 2 (prec - 1)); lia|].
            replace prec with (prec - 1 + 1)%Z at 2 by lia. rewrite Z.pow_add_r by lia. lia.
          - rewrite plus_IZR, <- HP, Rmult_plus_distr_r, <- bpow_plus. replace (prec - 1 + (1 - prec))%Z with 0%Z by lia. cbn. lra. }
        pose proof (bpow_gt_0 radix2 (1 - prec)). lra.
  Qed.
End Arith.

(** the float nearest to [n * 2^e] is that number *)
Lemma ex_norm {prec emax : Z} (Hp : Prec_gt_0 prec) (Hm : Prec_lt_emax prec emax) n e B :
  (Z.abs n <= B)%Z -> (B <= 2 ^ prec)%Z -> (3 - emax - prec <= e)%Z -> (prec + e < emax)%Z ->
  ex e B (binary_normalize prec emax Hp Hm mode_NE n e false) (IZR n * bpow radix2 e).
Proof.
  intros Hn HB Hlo Hhi. assert (Hn' : (Z.abs n <= 2 ^ prec)%Z) by lia.
  pose proof (binary_normalize_correct prec emax Hp Hm mode_NE n e false) as HH. cbn [round_mode] in HH.
  replace (F2R {| Fnum := n; Fexp := e |}) with (IZR n * bpow radix2 e) in HH by reflexivity.
  rewrite rnd_grid in HH by assumption. rewrite Rlt_bool_true in HH by (apply (small (prec := prec)); assumption).
  destruct HH as (HR & HF & _). split; [exact HF|]. split; [exact HR|]. exists n. auto.
Qed.
