(** Which strips can be built: those that are not too thin, and all of them with a grid of
    one cell. *)
From Coq Require Import List Bool Arith ZArith Lia Permutation.
From Verif Require Import Base Num GeoModel HazardModel QTModel TransfModel HpgModel CdeModel CdeSpec
  PolyModel LayoutModel ProblemModel ProblemSpec BaseProofs HazVecProofs QTProofs CdeProofs CdeOpsProofs CdeHistProofs CdeThmProofs LayoutProofs RigidProofs XformProofs RegionProofs GeoPrimProofs GeoRectProofs CdeGeoProofs CdeGeoThmProofs
  FitProofs ParityProofs NormProofs PlaceExampleProofs RectPolyProofs CentreProofs HpgSpec HpgGenProofs HpgRectProofs HpgThinProofs HpgRoomProofs LbfSpec LbfSpProofs.
From Coq Require Import Reals Lra.
From Verif Require Import GeoModel HazardModel QTModel TransfModel HpgModel CdeModel CdeSpec GeoSpec PlaceSpec HpgSpec ShapeSpec LbfModel LbfSpec.
Import ListNotations.
Local Open Scope R_scope.

Section S.
  Variable M : R.
  #[local] Instance NSB : Num R := RNumT Reqb M.
  #[local] Existing Instance RTrig.
  Context {ED : EqD (dtransf R)} {BS : BSearch}.
  Hypothesis BSok : bsearch_ok BS.
  Local Notation dtransf := (dtransf R).
  Local Notation bin := (bin R dtransf).

  (** a strip exists exactly when its grid does *)
  Lemma strip_grid : forall r c ptr, proper r -> exists z : hazard R dtransf,
    h_ent z = BinExterior /\ static_hazard z /\ p_pts (a_obj (h_shape z)) = p_pts (rbox (x_min r) (y_min r) (x_max r) (y_max r) 0) /\
    forall n, cfg_cells c = S n -> match hpg_new (inflate_to_square r) [z] (S n) with Ok _ => exists b : bin, bin_from_strip r c ptr = Ok b | Panic => bin_from_strip (D := dtransf) r c ptr = Panic end.
  Proof.
    intros r c ptr Pr. destruct (rect_works r Pr) as (s & Es). destruct (rect_pts r s Es) as (_ & _ & _ & Pp). specialize (Pp Pr).
    pose proof (rect_good r s Es) as Gs. assert (Eb : p_bbox s = r).
    { destruct Pr as (A & B). rewrite (rect_bbox _ _ Es), !Rmin_left, !Rmax_right by lra. destruct r; reflexivity. }
    set (z := hazard_new (D := dtransf) BinExterior (Arc ptr s)). exists z. split; [reflexivity|]. split; [|split].
    - split; [exact (good_sound _ Gs)|]. split; [|exact Logic.I]. cbn [z hazard_new h_shape a_obj]. rewrite Pp. discriminate.
    - cbn [z hazard_new h_shape a_obj]. rewrite Pp. reflexivity.
    - intros n En. assert (Es' : poly_of_rect r = Ok s) by (unfold poly_of_rect in *; eapply eq_trans; [apply (poly_new_M M)|exact Es]).
      assert (W : Forall (wf_hazard (N := NSB)) [z]) by (constructor; [exact (good_wf _ Gs)|constructor]).
      assert (Nd : NoDup (ents [z])) by (constructor; [intros []|constructor]).
      destruct (cde_new_ok BSok (cfg_depth c) (inflate_to_square r) [z] (S n) W Nd) as (qt & Ec & _).
      unfold bin_from_strip. rewrite Es'. cbn [rbind]. unfold bin_new. cbn [map no_repeat rassert rbind forallb zone_array]. rewrite En.
      match goal with |- context [cde_new ?bx ?hs _ _] => assert (Ex : bx = inflate_to_square r) by (cbn [a_obj]; exact (f_equal inflate_to_square Eb)); assert (Eh : hs = [z]) by reflexivity; rewrite Ex, Eh end.
      rewrite Ec. destruct (hpg_new (inflate_to_square r) [z] (S n)) as [g|]; cbn [rbind]; [eauto|reflexivity].
  Qed.
  Lemma inflate_wide : forall r, proper r -> y_max r - y_min r <= x_max r - x_min r ->
    inflate_to_square r = thin_box (x_min r) ((y_min r + y_max r) / 2) (x_max r - x_min r).
  Proof.
    intros [a b c d] (P1 & P2) W. cbn in *. unfold inflate_to_square, thin_box, f2. cbn [x_min x_max y_min y_max flt fsub fadd fdiv f0 f1 NSB RNumT]. unfold Rltb.
    destruct (Rlt_dec (d - b) (c - a)) as [L|L]; [f_equal; lra|]. destruct (Rlt_dec (c - a) (d - b)) as [L'|L']; [lra|]. f_equal; lra.
  Qed.
  Lemma room_in : forall r (z : hazard R dtransf), proper r -> h_ent z = BinExterior -> p_pts (a_obj (h_shape z)) = p_pts (rbox (x_min r) (y_min r) (x_max r) (y_max r) 0) ->
    sub_box r (inflate_to_square r) /\ clear_box r [z] /\ proper (inflate_to_square r) /\
    r_area (inflate_to_square r) = Rmax (x_max r - x_min r) (y_max r - y_min r) * Rmax (x_max r - x_min r) (y_max r - y_min r).
  Proof.
    intros r z Pr Ez Pz. pose proof Pr as (P1 & P2). split; [|split; [|split]].
    - unfold sub_box, inflate_to_square, f2. cbn [x_min x_max y_min y_max flt fsub fadd fdiv f0 f1 NSB RNumT]. unfold Rltb.
      destruct (Rlt_dec _ _) as [L|L]; [repeat split; lra|]. destruct (Rlt_dec _ _) as [L'|L']; repeat split; lra.
    - intros h p [<-|[]] (A & B). unfold blocked. cbn. rewrite Ez, Pz. cbn. intros [H|H].
      + exact (proj1 (rbox_inside _ _ _ _ 0 p A B) H).
      + pose proof (proj2 (rbox_inside _ _ _ _ 0 p A B)). cbn in *. congruence.
    - unfold proper, inflate_to_square, f2. cbn [x_min x_max y_min y_max flt fsub fadd fdiv f0 f1 NSB RNumT]. unfold Rltb.
      destruct (Rlt_dec _ _) as [L|L]; [split; lra|]. destruct (Rlt_dec _ _) as [L'|L']; split; lra.
    - unfold r_area, r_width, r_height, inflate_to_square, f2. cbn [x_min x_max y_min y_max flt fmul fsub fadd fdiv f0 f1 NSB RNumT]. unfold Rltb.
      destruct (Rlt_dec _ _) as [L|L]; [rewrite Rmax_left by lra; f_equal; lra|]. destruct (Rlt_dec _ _) as [L'|L']; rewrite Rmax_right by lra; f_equal; lra.
  Qed.

  (** at most four hundred times as long as wide *)
  Theorem stout_strip : forall r c ptr, proper r -> cfg_cells c <> 0%nat -> x_max r - x_min r <= 400 * (y_max r - y_min r) -> y_max r - y_min r <= 400 * (x_max r - x_min r) ->
    exists b : bin, bin_from_strip r c ptr = Ok b.
  Proof.
    intros r c ptr Pr Nc R1 R2. destruct (strip_grid r c ptr Pr) as (z & Ez & Sz & Pz & K). destruct (cfg_cells c) as [|n] eqn:En; [congruence|]. specialize (K n eq_refl).
    destruct (room_in r z Pr Ez Pz) as (A1 & A2 & A3 & A4). pose proof Pr as (P1 & P2).
    assert (Ar : r_area (inflate_to_square r) <= 400 * r_area r).
    { rewrite A4. unfold r_area, r_width, r_height. cbn [fmul fsub NSB RNumT].
      set (u := x_max r - x_min r) in *. set (v := y_max r - y_min r) in *. assert (0 < u) by (unfold u; lra). assert (0 < v) by (unfold v; lra).
      apply Rmax_case; nra. }
    destruct (room_grid BSok M (inflate_to_square r) r [z] (S n) A3 A1 Pr) as (g & Eg).
    - constructor; [exact Sz|constructor].
    - exists z. split; [left; reflexivity|]. rewrite Ez. reflexivity.
    - cbn [filter]. rewrite Ez. exact A2.
    - discriminate.
    - exact Ar.
    - assert (Eg' : hpg_new (inflate_to_square r) [z] (S n) = Ok g) by exact Eg. rewrite Eg' in K. exact K.
  Qed.
  (** a thousand times as long as wide, ten thousand cells *)
  Theorem wide_strip : forall r c ptr, proper r -> 10000 <= INR (cfg_cells c) -> 1000 * (y_max r - y_min r) <= x_max r - x_min r -> bin_from_strip (D := dtransf) r c ptr = Panic.
  Proof.
    intros r c ptr Pr Nc R1. destruct (strip_grid r c ptr Pr) as (z & Ez & Sz & Pz & K). destruct (cfg_cells c) as [|n] eqn:En; [cbn in Nc; lra|]. specialize (K n eq_refl).
    pose proof Pr as (P1 & P2). rewrite (inflate_wide r Pr) in K by lra.
    assert (E : hpg_new (thin_box (x_min r) ((y_min r + y_max r) / 2) (x_max r - x_min r)) [z] (S n) = Panic).
    { apply (thin_fails M _ _ _ (y_max r - y_min r)); [|lra|lra|exact Nc]. split; [exact Ez|]. split; [exact Sz|]. rewrite Pz.
      replace ((y_min r + y_max r) / 2 - (y_max r - y_min r) / 2) with (y_min r) by lra.
      replace ((y_min r + y_max r) / 2 + (y_max r - y_min r) / 2) with (y_max r) by lra.
      replace (x_min r + (x_max r - x_min r)) with (x_max r) by lra. reflexivity. }
    rewrite E in K. exact K.
  Qed.
  Lemma hit : forall left bb (hs : list (hazard R dtransf)) n cf step prev out, gen_attempt bb hs n cf = Ok out -> length out = n -> gen_loop left bb hs n cf step prev = Ok out.
  Proof. intros [|left] bb hs n cf step prev out E L; cbn [gen_loop]; rewrite E; cbn [rbind]; [reflexivity|]. rewrite L, Nat.compare_refl. reflexivity. Qed.
  (** a grid of one cell *)
  Theorem one_cell_strip : forall r c ptr, proper r -> cfg_cells c = 1%nat -> exists b : bin, bin_from_strip r c ptr = Ok b.
  Proof.
    intros r c ptr Pr Nc. destruct (strip_grid r c ptr Pr) as (z & Ez & Sz & Pz & K). specialize (K 0%nat Nc).
    destruct (room_in r z Pr Ez Pz) as (A1 & A2 & A3 & A4). pose proof Pr as (P1 & P2). set (bb := inflate_to_square r) in *.
    assert (St : Forall static_hazard [z]) by (constructor; [exact Sz|constructor]). assert (Ne : [z] <> []) by discriminate.
    set (w := Rmax (x_max r - x_min r) (y_max r - y_min r)) in *. assert (W0 : 0 < w) by (unfold w; apply Rmax_case; lra).
    assert (Gd : gen_dim bb 1 1 = w). { unfold gen_dim. change (sqrt (r_area bb / INR 1) * 1 = w). rewrite A4. cbn [INR]. replace (w * w / 1) with (w * w) by field. rewrite sqrt_square by lra. lra. }
    assert (Hd : 0 < gen_dim bb 1 1) by (rewrite Gd; exact W0).
    destruct (attempt_many M bb r [z] 1 1 A1 Pr St Ne A2 Hd) as (out & E & L).
    assert (Ea : gen_attempt bb [z] 1 f1 = Ok out) by exact E.
    assert (Lo : length out = 1%nat).
    { apply Nat.le_antisymm.
      - destruct (gen_attempt_ok M bb [z] 1 1 out E) as (_ & Hr & ND & _).
        assert (Wd : forall x, x < w / w -> x < 1) by (intros x Hx; replace (w / w) with 1 in Hx by (field; lra); exact Hx).
        assert (Inc : incl out [square bb w 0 0]); [|apply (NoDup_incl_length ND Inc)].
        intros q Hq. apply Hr in Hq as (i & j & Hi & Hj & -> & _).
        assert (Bx : r_width bb = w /\ r_height bb = w).
        { unfold bb, w, r_width, r_height, inflate_to_square, f2. cbn [x_min x_max y_min y_max flt fmul fsub fadd fdiv f0 f1 NSB RNumT]. unfold Rltb.
          destruct (Rlt_dec _ _) as [Q|Q]; [rewrite Rmax_left by lra; split; lra|]. destruct (Rlt_dec _ _) as [Q'|Q']; rewrite Rmax_right by lra; split; lra. }
        assert (Hi' : INR i < r_width bb / gen_dim bb 1 1) by exact Hi. assert (Hj' : INR j < r_height bb / gen_dim bb 1 1) by exact Hj.
        rewrite Gd, (proj1 Bx) in Hi'. rewrite Gd, (proj2 Bx) in Hj'. apply Wd in Hi', Hj'. change 1 with (INR 1) in Hi', Hj'. apply INR_lt in Hi', Hj'.
        assert (i = 0%nat) as -> by lia. assert (j = 0%nat) as -> by lia. left. symmetry.
        change (gen_dim (N := NMg M) bb 1 1) with (gen_dim bb 1 1). rewrite Gd. reflexivity.
      - destruct out as [|q out]; [|cbn; lia]. exfalso. cbn [length INR] in L. assert (0 < r_area r); [|].
        + unfold r_area, r_width, r_height. cbn [fmul fsub NSB RNumT]. apply Rmult_lt_0_compat; lra.
        + rewrite Rmult_0_l in L. assert (L' : r_area r <= 0) by exact L. lra. }
    assert (G : generate bb [z] 1 = Ok out).
    { unfold generate. assert (Ar : flt f0 (r_area bb) = true) by (apply Rltb_spec; rewrite A4; exact (Rmult_lt_0_compat _ _ W0 W0)). rewrite Ar. apply hit; assumption. }
    assert (No : out <> []) by (intros Z; rewrite Z in Lo; discriminate).
    assert (Fz : filter (fun h : hazard R dtransf => ent_universal (h_ent h)) [z] = [z]) by (cbn [filter]; rewrite Ez; reflexivity).
    destruct (hpg_new_total BSok M bb [z] 1 out St ltac:(discriminate) A3) as (g & Eg); [rewrite Fz; exact G|exact No|].
    assert (Eg' : hpg_new bb [z] 1 = Ok g) by exact Eg. rewrite Eg' in K. exact K.
  Qed.
  Lemma one_cell_strips : forall c hgt, 0 < hgt -> cfg_cells c = 1%nat -> strips_constructible c hgt.
  Proof. intros c hgt Hh Hc a w ptr Hw. apply one_cell_strip; [split; cbn; lra|exact Hc]. Qed.
End S.
