(** Building the proximity grid succeeds when the free space contains a rectangle of a
    four-hundredth of the area of the box. *)
From Coq Require Import List Bool Arith Lia Permutation Sorted ZArith.
From Verif Require Import Base Num GeoModel HazardModel QTModel TransfModel HpgModel CdeModel BaseProofs CdeSpec CdeOpsProofs CdeHistProofs GeoSpec ParityProofs
  GeoPrimProofs PlaceSpec HpgSpec HpgGridProofs HpgFillProofs HpgCellProofs HpgRegProofs HpgHistProofs HpgGenProofs HpgThmProofs HpgFullProofs HpgTidyProofs HpgRectProofs HpgThinProofs.
From Coq Require Import Reals Lra.
From Verif Require Import GeoModel HazardModel QTModel TransfModel HpgModel CdeModel CdeSpec GeoSpec PlaceSpec HpgSpec.
Import ListNotations.
Local Open Scope R_scope.

Section Room.
  Context {D : Type} {ED : EqD D} {BS : BSearch}.
  Hypothesis BSok : bsearch_ok BS.
  Variable M : R.
  #[local] Instance NMr : Num R := RNumT Reqb M.
  Local Notation hazard := (hazard R D).

  Lemma NoDup_prod : forall {A B} (l : list A) (l' : list B), NoDup l -> NoDup l' -> NoDup (list_prod l l').
  Proof.
    intros A B l l' N N'. induction N as [|a l Na N IH]; cbn [list_prod]; [constructor|]. apply NoDup_app3; [|exact IH|].
    - apply FinFun.Injective_map_NoDup; [intros x y Q; injection Q; auto|exact N'].
    - intros x H1 H2. apply in_map_iff in H1 as (b & <- & _). apply in_prod_iff in H2 as (H2 & _). contradiction.
  Qed.
  (** the columns that meet an interval *)
  Lemma columns : forall o a b e dim, o <= a -> a < b -> b <= e -> 0 < dim -> exists i0 k, (b - a) / dim <= INR k /\
    forall i, In i (seq i0 k) -> INR i < (e - o) / dim /\ exists x, a < x < b /\ o + dim * INR i < x < o + dim * INR i + dim.
  Proof.
    intros o a b e dim Ho Hab He Hd. set (t := (a - o) / dim). assert (Et : t * dim = a - o) by (unfold t; field; lra). assert (T0 : 0 <= t).
    { destruct (Rle_lt_dec 0 t) as [L|L]; [exact L|]. exfalso. assert (t * dim < 0) by nra. lra. }
    set (s := (b - o) / dim). assert (Es : s * dim = b - o) by (unfold s; field; lra).
    destruct (base_Int_part t) as (I1 & I2). set (z := Int_part t) in *. assert (Z0 : (0 <= z)%Z) by (apply le_IZR; destruct (Z_le_gt_dec 0 z) as [L|L]; [apply IZR_le in L; exact L|exfalso; assert (L' : (z <= -1)%Z) by lia; apply IZR_le in L'; lra]).
    set (i0 := Z.to_nat z). assert (E0 : INR i0 = IZR z) by (rewrite INR_IZR_INZ; unfold i0; rewrite Z2Nat.id by exact Z0; reflexivity).
    set (m := Rceil_nat s). pose proof (ceil_ge s) as Cs. fold m in Cs.
    assert (Ts : t < s) by (apply Rmult_lt_reg_r with dim; [exact Hd|lra]).
    assert (Lm : (i0 < m)%nat) by (apply ceil_nat; lra).
    exists i0, (m - i0)%nat. split.
    - rewrite minus_INR by lia. replace ((b - a) / dim) with (s - t) by (unfold s, t; field; lra). lra.
    - intros i Hi. apply in_seq in Hi as (A & B). assert (B' : (i < m)%nat) by lia. apply ceil_nat in B'. apply le_INR in A.
      assert (Ee : s <= (e - o) / dim) by (unfold s; apply Rmult_le_compat_r; [apply Rlt_le, Rinv_0_lt_compat; exact Hd|lra]).
      split; [lra|]. set (lo := Rmax a (o + dim * INR i)). set (hi := Rmin b (o + dim * INR i + dim)).
      assert (Lt : lo < hi). { unfold lo, hi. apply Rmax_lub_lt; apply Rmin_glb_lt; nra. }
      exists ((lo + hi) / 2). pose proof (Rmax_l a (o + dim * INR i)). pose proof (Rmax_r a (o + dim * INR i)). pose proof (Rmin_l b (o + dim * INR i + dim)). pose proof (Rmin_r b (o + dim * INR i + dim)).
      fold lo in H, H0. fold hi in H1, H2. split; lra.
  Qed.
  Lemma free_kept : forall bb (hs : list hazard) dim i j p, Forall static_hazard hs -> hs <> [] -> 0 < dim -> (forall h, In h hs -> ~ blocked (fact_of h) p) ->
    x_min (square bb dim i j) < px p < x_max (square bb dim i j) -> y_min (square bb dim i j) < py p < y_max (square bb dim i j) -> kept M bb hs dim i j.
  Proof.
    intros bb hs dim i j p St Ne Hd Cl Ip Jp. pose proof (in_square_dist M bb dim i j p Hd Ip Jp) as Dp.
    destruct (dist_total M (r_centroid (square bb dim i j)) hs St Ne) as (d & E & h & x & Hh & [(-> & X0)|(-> & Bl)]).
    - exists x. split; [exact E|]. destruct (half_diag_sq dim Hd). lra.
    - exists (- x). split; [exact E|]. destruct (Rlt_le_dec x (half_diag dim)) as [L|L]; [lra|]. exfalso. apply (Cl h Hh). apply Bl.
      assert (Dp' : edist (r_centroid (square bb dim i j)) p < half_diag dim) by exact Dp. lra.
  Qed.
  (** an attempt has at least as many cells as fit into the rectangle by area *)
  Lemma attempt_many : forall bb rr (hs : list hazard) n cf, sub_box rr bb -> proper rr -> Forall static_hazard hs -> hs <> [] -> clear_box rr hs ->
    0 < gen_dim bb n cf -> exists out, gen_attempt bb hs n cf = Ok out /\
      r_area rr <= INR (length out) * (gen_dim bb n cf * gen_dim bb n cf).
  Proof.
    intros bb rr hs n cf (W1 & W2 & W3 & W4) (Px & Py) St Ne Cl Hd. set (dim := gen_dim bb n cf) in *.
    destruct (attempt_total M bb hs n cf (Rgt_not_eq _ _ Hd) St Ne) as (out & E). exists out. split; [exact E|].
    destruct (gen_attempt_ok M bb hs n cf out E) as (Dz & Hr & ND & _). 
    destruct (columns (x_min bb) (x_min rr) (x_max rr) (x_max bb) dim W1 Px W3 Hd) as (i0 & ki & Ki & Hi).
    destruct (columns (y_min bb) (y_min rr) (y_max rr) (y_max bb) dim W2 Py W4 Hd) as (j0 & kj & Kj & Hj).
    set (l := map (fun ij => square bb dim (fst ij) (snd ij)) (list_prod (seq i0 ki) (seq j0 kj))).
    assert (L : (ki * kj <= length out)%nat).
    { replace (ki * kj)%nat with (length l) by (unfold l; rewrite map_length, prod_length, !seq_length; reflexivity).
      apply NoDup_incl_length.
      - unfold l. apply FinFun.Injective_map_NoDup.
        + intros [a b] [a' b'] Q. cbn [fst snd] in Q. unfold square in Q. injection Q as Q1 Q2 _ _. f_equal; apply INR_eq; apply Rmult_eq_reg_l with dim; lra.
        + apply NoDup_prod; apply seq_NoDup.
      - intros r Hin. unfold l in Hin. apply in_map_iff in Hin as ((i & j) & <- & Hin). cbn [fst snd]. apply in_prod_iff in Hin as (Hin1 & Hin2).
        destruct (Hi i Hin1) as (Bi & x & X1 & X2). destruct (Hj j Hin2) as (Bj & y & Y1 & Y2). apply Hr. exists i, j.
        split; [exact Bi|]. split; [exact Bj|]. split; [reflexivity|]. apply (free_kept bb hs dim i j (Pt x y)); try assumption.
        intros h Hh. apply (Cl h (Pt x y) Hh). split; assumption. }
    apply le_INR in L. rewrite mult_INR in L. unfold r_area, r_width, r_height. cbn [fmul fsub NMr RNumT].
    assert (A1 : x_max rr - x_min rr <= INR ki * dim). { apply (Rmult_le_compat_r dim) in Ki; [|lra]. replace ((x_max rr - x_min rr) / dim * dim) with (x_max rr - x_min rr) in Ki by (field; lra). exact Ki. }
    assert (A2 : y_max rr - y_min rr <= INR kj * dim). { apply (Rmult_le_compat_r dim) in Kj; [|lra]. replace ((y_max rr - y_min rr) / dim * dim) with (y_max rr - y_min rr) in Kj by (field; lra). exact Kj. }
    apply Rle_trans with ((INR ki * dim) * (INR kj * dim)); [apply Rmult_le_compat; lra|].
    replace (INR ki * dim * (INR kj * dim)) with (INR ki * INR kj * (dim * dim)) by ring. apply Rmult_le_compat_r; [nra|exact L].
  Qed.

  Lemma room_gen : forall bb rr (hs : list hazard) n, proper bb -> sub_box rr bb -> proper rr -> Forall static_hazard hs -> hs <> [] -> clear_box rr hs -> n <> 0%nat ->
    r_area bb <= 400 * r_area rr -> exists out, generate bb hs n = Ok out /\ out <> [].
  Proof.
    intros bb rr hs n Pb Wi Pr St Ne Cl Nn Ar. assert (N1 : 1 <= INR n) by (change 1 with (INR 1); apply le_INR; lia).
    assert (A0 : 0 < r_area bb). { destruct Pb. unfold r_area, r_width, r_height. cbn [fmul fsub NMr RNumT]. apply Rmult_lt_0_compat; lra. }
    assert (Gd : forall cf, gen_dim bb n cf * gen_dim bb n cf = r_area bb / INR n * (cf * cf)).
    { intros cf. unfold gen_dim, fofN. cbn [fsqrt fmul fdiv NMr RNumT].
      change (sqrt (r_area bb / INR n) * cf * (sqrt (r_area bb / INR n) * cf) = r_area bb / INR n * (cf * cf)).
      assert (Q : 0 <= r_area bb / INR n) by (apply Rmult_le_pos; [lra|apply Rlt_le, Rinv_0_lt_compat; lra]).
      replace (r_area bb / INR n * (cf * cf)) with ((sqrt (r_area bb / INR n) * sqrt (r_area bb / INR n)) * (cf * cf)) by (rewrite sqrt_sqrt by exact Q; reflexivity). ring. }
    assert (At : forall cf, 0 < cf -> exists out, gen_attempt bb hs n cf = Ok out /\ out <> [] /\ ((length out < n)%nat -> 1 / 20 < cf)).
    { intros cf Hc. assert (Hd : 0 < gen_dim bb n cf).
      { unfold gen_dim, fofN. cbn [fsqrt fmul fdiv NMr RNumT]. apply Rmult_lt_0_compat; [|exact Hc]. apply sqrt_lt_R0. apply Rmult_lt_0_compat; [exact A0|]. apply Rinv_0_lt_compat. lra. }
      destruct (attempt_many bb rr hs n cf Wi Pr St Ne Cl Hd) as (out & E & L). rewrite Gd in L. exists out. split; [exact E|].
      assert (L' : r_area bb <= 400 * (INR (length out) * (r_area bb / INR n * (cf * cf)))) by lra.
      assert (Q : r_area bb / INR n * INR n = r_area bb) by (field; lra). set (q := r_area bb / INR n) in *.
      assert (Q0 : 0 < q) by nra. assert (L2 : INR n <= 400 * (INR (length out) * (cf * cf))) by (apply Rmult_le_reg_l with q; [exact Q0|lra]).
      split; [intros Z; rewrite Z in L2; cbn [length INR] in L2; lra|].
      intros Lt. destruct (Rlt_le_dec (1 / 20) cf) as [G|G]; [exact G|]. exfalso. apply lt_INR in Lt. pose proof (pos_INR (length out)).
      assert (cf * cf <= 1 / 400) by nra. assert (INR (length out) * (cf * cf) <= INR (length out) * (1 / 400)) by (apply Rmult_le_compat_l; assumption). lra. }
    unfold generate. assert (Ar' : flt f0 (r_area bb) = true) by (apply Rltb_spec; exact A0). rewrite Ar'.
    assert (Lp : forall left cf step prev, 0 < cf -> 0 <= step -> (match prev with None => step <= 1 / 10 | Some _ => step <= 1 / 20 end) -> exists out, gen_loop left bb hs n cf step prev = Ok out /\ out <> []).
    { induction left as [|left IH]; intros cf step prev Hc Hs Hp; cbn [gen_loop]; destruct (At cf Hc) as (out & E & No & Lt); rewrite E; cbn [rbind]; [eauto|].
      set (step' := match prev with Some p => if cmp_eqb p (length out ?= n)%nat then step else fdiv step f2 | None => fdiv step f2 end).
      assert (S' : 0 <= step' <= 1 / 20).
      { assert (Hf : fdiv step f2 = step / 2) by reflexivity.
        unfold step'. rewrite Hf. destruct prev as [p|]; [destruct (cmp_eqb p _)|]; lra. }
      destruct (Nat.compare_spec (length out) n) as [Q|Q|Q].
      - eauto.
      - apply IH; [|apply S'|apply S']. specialize (Lt Q). cbn [fsub NMr RNumT]. lra.
      - apply IH; [|apply S'|apply S']. cbn [fadd NMr RNumT]. lra. }
    assert (T : fdiv f1 (fofN 10) = 1 / 10) by (cbn; field). rewrite T. apply Lp; [exact Rlt_0_1|lra|lra].
  Qed.

  Theorem room_grid : forall bb rr (sts : list hazard) n, proper bb -> sub_box rr bb -> proper rr -> Forall static_hazard sts ->
    (exists h, In h sts /\ ent_universal (h_ent h) = true) -> clear_box rr (filter (fun h => ent_universal (h_ent h)) sts) -> n <> 0%nat ->
    r_area bb <= 400 * r_area rr -> exists g, hpg_new bb sts n = Ok g.
  Proof.
    intros bb rr sts n Pb Wi Pr St (h0 & Hh0 & U0) Cl Nn Ar. set (hs := filter (fun h => ent_universal (h_ent h)) sts) in *.
    assert (Sh : Forall static_hazard hs) by (apply Forall_forall; intros h Hh; apply filter_In in Hh; rewrite Forall_forall in St; apply St, Hh).
    assert (Ne : hs <> []) by (intros Z; assert (K : In h0 hs) by (apply filter_In; auto); rewrite Z in K; destruct K).
    destruct (room_gen bb rr hs n Pb Wi Pr Sh Ne Cl Nn Ar) as (out & E & No).
    exact (hpg_new_total BSok M bb sts n out St Nn Pb E No).
  Qed.
End Room.
