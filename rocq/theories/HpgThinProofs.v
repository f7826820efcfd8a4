(** A bin that is much longer than wide: the search for the number of cells fails. *)
From Coq Require Import List Bool Arith Lia Permutation Sorted ZArith.
From Verif Require Import Base Num GeoModel HazardModel QTModel TransfModel HpgModel CdeModel BaseProofs CdeSpec CdeOpsProofs CdeHistProofs GeoSpec ParityProofs
  GeoPrimProofs PlaceSpec HpgSpec HpgGridProofs HpgFillProofs HpgCellProofs HpgRegProofs HpgHistProofs HpgGenProofs HpgThmProofs HpgFullProofs HpgTidyProofs HpgRectProofs RegionProofs PlaceExampleProofs.
From Coq Require Import Reals Lra.
From Verif Require Import GeoModel HazardModel QTModel TransfModel HpgModel CdeModel CdeSpec GeoSpec PlaceSpec HpgSpec.
Import ListNotations.
Local Open Scope R_scope.

Section Thin.
  Context {D : Type} {ED : EqD D} {BS : BSearch}.
  Hypothesis BSok : bsearch_ok BS.
  Variable M : R.
  #[local] Instance NMw : Num R := RNumT Reqb M.
  Local Notation hazard := (hazard R D).

  Lemma attempt_total : forall bb (hs : list hazard) n cf, gen_dim bb n cf <> 0 -> Forall static_hazard hs -> hs <> [] ->
    exists out, gen_attempt bb hs n cf = Ok out.
  Proof.
    intros bb hs n cf Hd St Ne. unfold gen_attempt. cbv zeta. set (dim := gen_dim bb n cf) in *. cbn [feq f0 NMw RNumT]. unfold Reqb. destruct (Req_EM_T dim 0) as [Z|Z]; [contradiction|].
    assert (T : forall (A B : Type) (f : A -> B -> res A) l, (forall a b, exists a', f a b = Ok a') -> forall a, exists a', rfold f l a = Ok a').
    { intros A B f l Hf. induction l as [|b l IH]; intros a; cbn [rfold]; [eauto|]. destruct (Hf a b) as (a' & ->). cbn [rbind]. apply IH. }
    apply T. intros acc i. apply T. intros acc' j.
    match goal with |- exists a', rbind ?e _ = _ => assert (K : exists d, e = Ok d) end.
    { match goal with |- exists d, distance_to_hazard ?p _ = _ => destruct (dist_total M p hs St Ne) as (d & E & _) end. exists d. exact E. }
    destruct K as (d & ->). cbn [rbind]. eauto.
  Qed.
  Lemma ceil_lt : forall x, 0 < x -> INR (Rceil_nat x) < x + 1.
  Proof.
    intros x Hx. destruct (Rceil_nat x) as [|m] eqn:E; [cbn; lra|]. rewrite S_INR. assert (K : INR m < x) by (apply ceil_nat; rewrite E; lia). lra.
  Qed.

  (** kept cells in few rows are few *)
  Lemma few_rows : forall bb (hs : list hazard) n cf out lo k, let dim := gen_dim bb n cf in gen_attempt bb hs n cf = Ok out ->
    (forall i j, kept M bb hs dim i j -> lo < INR j < lo + INR k) -> (length out <= Rceil_nat (r_width bb / dim) * k)%nat.
  Proof.
    intros bb hs n cf out lo k dim E K. destruct (gen_attempt_ok M bb hs n cf out E) as (Dz & Hr & ND & _). fold dim in Dz, Hr.
    set (nx := Rceil_nat (r_width bb / dim)). set (s := Z.to_nat (up lo)).
    replace (nx * k)%nat with (length (map (fun ij => square bb dim (fst ij) (snd ij)) (list_prod (seq 0 nx) (seq s k)))) by (rewrite map_length, prod_length, !seq_length; reflexivity).
    apply NoDup_incl_length; [exact ND|]. intros r Hin. apply Hr in Hin as (i & j & Hi & Hj & -> & Kp).
    apply in_map_iff. exists (i, j). split; [reflexivity|]. apply in_prod.
    - apply in_seq. split; [lia|]. apply ceil_nat. exact Hi.
    - apply K in Kp as [L H]. destruct (archimed lo) as [A B]. rewrite INR_IZR_INZ in L, H. rewrite INR_IZR_INZ in H.
      assert (Q1 : (up lo - 1 < Z.of_nat j)%Z) by (apply lt_IZR; rewrite minus_IZR; lra).
      assert (Q2 : (Z.of_nat j < up lo + Z.of_nat k)%Z) by (apply lt_IZR; rewrite plus_IZR; lra).
      apply in_seq. unfold s. lia.
  Qed.

  (** a rectangular bin and its square box *)
  Definition thin_box (x0 m w : R) : rect R := Rc x0 (m - w / 2) (x0 + w) (m + w / 2).
  Definition thin_bin (x0 m w h : R) (z : hazard) : Prop :=
    h_ent z = BinExterior /\ static_hazard z /\ p_pts (a_obj (h_shape z)) = p_pts (rbox x0 (m - h / 2) (x0 + w) (m + h / 2) 0).
  Lemma thin_kept : forall x0 m w h z dim i j, 0 < w -> 0 < h -> 0 < dim -> thin_bin x0 m w h z -> kept M (thin_box x0 m w) [z] dim i j ->
    m - h / 2 - half_diag dim < m - w / 2 + dim * (INR j + / 2) < m + h / 2 + half_diag dim.
  Proof.
    intros x0 m w h z dim i j Hw Hh Hd (Ez & Sz & Pz) (d & E & L). set (p := r_centroid (square (thin_box x0 m w) dim i j)) in *.
    assert (Yp : py p = m - w / 2 + dim * (INR j + / 2)).
    { unfold p. change (r_centroid (square (thin_box x0 m w) dim i j)) with (@r_centroid R (NMg M) (square (thin_box x0 m w) dim i j)). rewrite (square_centroid M). reflexivity. }
    rewrite <- Yp. destruct (half_diag_sq dim Hd) as (H0 & _).
    destruct Sz as (So & Np & _). destruct (p_dist_border_ok _ p So Np) as (pos & x & Ex & [(q & Bq & Dq) _] & Po).
    pose proof (proj1 (rbox_smallest x0 (m - h / 2) (x0 + w) (m + h / 2) 0 ltac:(lra) ltac:(lra))) as Bx. rewrite <- Pz in Bx.
    assert (Iq : in_rect (Rc x0 (m - h / 2) (x0 + w) (m + h / 2)) q) by (eapply border_in_box; [exact Bx|exact Bq]). destruct Iq as (_ & Iq). cbn [y_min y_max] in Iq.
    assert (Xd : Rabs (py p - py q) <= x).
    { rewrite <- Dq. pose proof (edist_sq p q) as S2. pose proof (edist_nonneg p q). pose proof (pow2_ge_0 (px p - px q)). set (dy := py p - py q) in *. set (e := edist p q) in *. apply Rabs_le. split.
      - destruct (Rle_lt_dec (- e) dy); [assumption|]. exfalso. assert (e * e < dy * dy) by nra. nra.
      - destruct (Rle_lt_dec dy e); [assumption|]. exfalso. assert (e * e < dy * dy) by nra. nra. }
    assert (Out : ~ (m - h / 2 <= py p <= m + h / 2) -> d = - x).
    { intros No. assert (Nr : ~ region (p_pts (a_obj (h_shape z))) p).
      { rewrite Pz. intros Rg. apply rbox_region in Rg as (_ & Rg); [cbn [y_min y_max] in Rg; contradiction|lra|lra]. }
      assert (pos = Exterior) as ->.
      { destruct Po as [B|I]; [exfalso; apply Nr; left; exact B|]. destruct pos; [reflexivity|]. exfalso. apply Nr. right. apply I. reflexivity. }
      unfold distance_to_hazard in E. cbn [rmapM] in E.
      assert (Ex' : @p_dist_border R (NMg M) (a_obj (h_shape z)) p = Ok (Exterior, x)) by exact Ex.
      unfold p in E, Ex'. rewrite Ex' in E. cbn [rbind] in E. rewrite Ez in E. cbn in E. injection E as <-. reflexivity. }
    assert (x < half_diag dim \/ (m - h / 2 <= py p <= m + h / 2)).
    { destruct (Rle_dec (m - h / 2) (py p)) as [A|A]; [destruct (Rle_dec (py p) (m + h / 2)) as [B|B]; [right; split; assumption|]|].
      - left. rewrite Out in L by lra. lra.
      - left. rewrite Out in L by lra. lra. }
    apply Rabs_le_inv in Xd. lra.
  Qed.

  Lemma thin_few : forall x0 m w h z n cf out, thin_bin x0 m w h z -> 0 < h -> 1000 * h <= w -> 10000 <= INR n -> 1 / 20 <= cf <= 1 ->
    gen_attempt (thin_box x0 m w) [z] n cf = Ok out -> (length out < n)%nat.
  Proof.
    intros x0 m w h z n cf out Tz Hh Hw Hn Hc E. assert (W0 : 0 < w) by lra.
    set (t := sqrt (INR n)). assert (T2 : t * t = INR n) by (apply sqrt_sqrt; lra). assert (T0 : 0 <= t) by apply sqrt_pos. assert (T1 : 100 <= t) by nra.
    set (dim := gen_dim (thin_box x0 m w) n cf) in *.
    assert (Gd : dim = w / t * cf).
    { unfold dim, gen_dim, r_area, fofN, t. cbn [fsqrt fmul fdiv NMw RNumT]. unfold r_width, r_height, thin_box. cbn [x_min x_max y_min y_max fsub NMw RNumT].
      f_equal. replace ((x0 + w - x0) * (m + w / 2 - (m - w / 2)) / INR n) with (w * w / INR n) by (field; lra). rewrite sqrt_div_alt by lra. rewrite sqrt_square by lra. reflexivity. }
    assert (Hd : 0 < dim). { rewrite Gd. apply Rmult_lt_0_compat; [|lra]. apply Rmult_lt_0_compat; [exact W0|apply Rinv_0_lt_compat; lra]. }
    set (u := / cf). assert (U1 : u <= 20). { unfold u. replace 20 with (/ (1 / 20)) by field. apply Rinv_le_contravar; lra. }
    assert (U0 : 1 <= u). { unfold u. rewrite <- Rinv_1. apply Rinv_le_contravar; lra. }
    assert (Wd : r_width (thin_box x0 m w) / dim = t * u). { unfold r_width, thin_box, u. cbn [x_min x_max fsub NMw RNumT]. rewrite Gd. field. repeat split; lra. }
    assert (Hdm : h / dim <= t * u / 1000).
    { replace (t * u / 1000) with (w / 1000 / dim) by (rewrite Gd; unfold u; field; repeat split; lra). apply Rmult_le_compat_r; [apply Rlt_le, Rinv_0_lt_compat; exact Hd|lra]. }
    set (L := h / dim + 1415 / 1000). assert (L0 : 0 < L). { unfold L. assert (0 < h / dim) by (apply Rmult_lt_0_compat; [exact Hh|apply Rinv_0_lt_compat; exact Hd]). lra. }
    pose proof (few_rows (thin_box x0 m w) [z] n cf out ((w / 2 - h / 2 - half_diag dim) / dim - / 2) (Rceil_nat L) E) as F. cbv zeta in F. fold dim in F. rewrite Wd in F.
    assert (Lf : (length out <= Rceil_nat (t * u) * Rceil_nat L)%nat).
    { apply F. intros i j Kp. apply (thin_kept x0 m w h z) in Kp; [|lra|exact Hh|exact Hd|exact Tz]. destruct Kp as [K1 K2].
      destruct (half_diag_sq dim Hd) as (G0 & G2). assert (Gs : 2 * half_diag dim <= 1415 / 1000 * dim) by nra.
      pose proof (ceil_ge L) as Cl. set (a := (w / 2 - h / 2 - half_diag dim) / dim). assert (Ea : a * dim = w / 2 - h / 2 - half_diag dim) by (unfold a; field; lra).
      set (b := h / dim) in *. assert (Eb : b * dim = h) by (unfold b; field; lra).
      split; [apply Rmult_lt_reg_r with dim; [exact Hd|]; nra|].
      apply Rlt_le_trans with (a - / 2 + L); [|lra]. apply Rmult_lt_reg_r with dim; [exact Hd|]. unfold L. nra. }
    apply INR_lt. apply le_INR in Lf. rewrite mult_INR in Lf. pose proof (ceil_lt (t * u) ltac:(nra)) as C1. pose proof (ceil_lt L L0) as C2. pose proof (pos_INR (Rceil_nat L)). pose proof (pos_INR (Rceil_nat (t * u))).
    assert (V0 : t <= t * u) by nra. assert (V1 : t * u <= 20 * t) by nra. assert (LB : L <= t * u / 1000 + 1415 / 1000) by (unfold L; lra).
    assert (B1 : INR (Rceil_nat (t * u)) <= 20 * t + 1) by lra. assert (B2 : INR (Rceil_nat L) <= t / 50 + 2415 / 1000) by lra.
    assert (INR (Rceil_nat (t * u)) * INR (Rceil_nat L) <= (20 * t + 1) * (t / 50 + 2415 / 1000)) by (apply Rmult_le_compat; assumption). nra.
  Qed.

  Theorem thin_fails : forall x0 mid w h z n, thin_bin x0 mid w h z -> 0 < h -> 1000 * h <= w -> 10000 <= INR n -> hpg_new (thin_box x0 mid w) [z] n = Panic.
  Proof.
    intros x0 mid w h z n Tz Hh Hw Hn. assert (W0 : 0 < w) by lra. unfold hpg_new. destruct n as [|n0]; [cbn in Hn; lra|]. set (n := S n0) in *. assert (Fz : filter (fun h : hazard => ent_universal (h_ent h)) [z] = [z]) by (cbn [filter]; rewrite (proj1 Tz); reflexivity).
    rewrite Fz. enough (E : generate (thin_box x0 mid w) [z] n = Panic) by (rewrite E; reflexivity).
    unfold generate. assert (Ar : flt f0 (r_area (thin_box x0 mid w)) = true).
    { unfold r_area, r_width, r_height, thin_box. cbn [flt f0 fmul fsub x_min x_max y_min y_max NMw RNumT]. apply Rltb_spec. nra. }
    rewrite Ar. assert (T0 : 0 < sqrt (INR n)) by (apply sqrt_lt_R0; lra).
    assert (St : Forall static_hazard [z]) by (constructor; [exact (proj1 (proj2 Tz))|constructor]).
    assert (Gz : forall cf, cf = 0 -> gen_attempt (thin_box x0 mid w) [z] n cf = Panic).
    { intros cf ->. unfold gen_attempt. cbv zeta. unfold gen_dim. cbn [feq f0 fmul NMw RNumT]. unfold Reqb. destruct (Req_EM_T _ 0) as [Z|Z]; [reflexivity|]. exfalso. apply Z. apply Rmult_0_r. }
    assert (Ar0 : 0 < r_area (thin_box x0 mid w)) by (apply Rltb_spec; exact Ar).
    assert (Gp : forall cf, 1 / 20 <= cf <= 1 -> exists out, gen_attempt (thin_box x0 mid w) [z] n cf = Ok out /\ (length out < n)%nat).
    { intros cf Hc. destruct (attempt_total (thin_box x0 mid w) [z] n cf) as (out & E); [|exact St|discriminate|].
      - unfold gen_dim. cbn [fmul fsqrt fdiv NMw RNumT]. apply Rmult_integral_contrapositive_currified; [|lra]. apply Rgt_not_eq. apply sqrt_lt_R0. unfold fofN. cbn [NMw RNumT].
        apply Rmult_lt_0_compat; [exact Ar0|apply Rinv_0_lt_compat; lra].
      - exists out. split; [exact E|]. exact (thin_few x0 mid w h z n cf out Tz Hh Hw Hn Hc E). }
    assert (Lp : forall d left m cf step, (d + m = 20)%nat -> (d <= left)%nat -> cf = 1 - INR m / 20 -> step = 1 / 20 ->
      gen_loop left (thin_box x0 mid w) [z] n cf step (Some Lt) = Panic).
    { induction d as [|d IH]; intros left m cf step Hm Hl Hc Hs.
      - assert (m = 20%nat) as -> by lia. assert (cf = 0) as Z by (rewrite Hc; cbn; lra). destruct left; cbn [gen_loop]; rewrite (Gz cf Z); reflexivity.
      - destruct left as [|left]; [lia|]. cbn [gen_loop].
        assert (Hm' : INR d + 1 + INR m = 20) by (rewrite <- S_INR, <- plus_INR, Hm; cbn; lra). pose proof (pos_INR d). pose proof (pos_INR m).
        destruct (Gp cf) as (out & -> & Lo); [lra|]. cbn [rbind]. apply Nat.compare_lt_iff in Lo. rewrite Lo. cbn [cmp_eqb].
        apply (IH left (S m)); [lia|lia| |exact Hs]. rewrite S_INR. cbn [fsub NMw RNumT]. lra. }
    change MAX_ITERATIONS with (S 24). assert (L24 : (19 <= 24)%nat) by lia. revert L24. generalize 24%nat as left. intros left L24. cbn [gen_loop]. destruct (Gp f1) as (out & -> & Lo); [cbn [f1 NMw RNumT]; lra|]. cbn [rbind]. apply Nat.compare_lt_iff in Lo. rewrite Lo.
    assert (Hs : fdiv (fdiv f1 (fofN 10)) f2 = 1 / 20). { unfold fofN, f2. cbn [fdiv fadd f1 NMw RNumT]. assert (INR 10 = 10) as -> by (cbn; lra). field. }
    apply (Lp 19%nat left 1%nat); [lia|lia| |exact Hs]. rewrite Hs. cbn. lra.
  Qed.

  Definition strip (w h k : R) : hazard := Hz BinExterior (Arc 0%nat (rbox 0 (- (h / 2)) w (h / 2) k)) true.
  Definition strip_box (w : R) : rect R := Rc 0 (- (w / 2)) w (w / 2).
  Lemma strip_static : forall w h k, 0 < w -> 0 < h -> static_hazard (strip w h k).
  Proof.
    intros w h k Hw Hh. split; [|split; [discriminate|exact Logic.I]]. apply good_sound. apply rbox_good; lra.
  Qed.
  Theorem strip_fails : forall w h k n, 0 < h -> 1000 * h <= w -> 10000 <= INR n -> hpg_new (strip_box w) [strip w h k] n = Panic.
  Proof.
    intros w h k n Hh Hw Hn. replace (strip_box w) with (thin_box 0 0 w) by (unfold thin_box, strip_box; f_equal; lra).
    apply (thin_fails 0 0 w h); try assumption. split; [reflexivity|]. split; [apply strip_static; lra|].
    unfold strip, rbox. cbn [h_shape a_obj p_pts]. repeat (f_equal; try lra).
  Qed.
End Thin.

Lemma strip_refutes : forall M : R, exists (bb : rect R) (sts : list (hazard R nat)) (n : nat),
  proper bb /\ @r_width R (RNumT Reqb M) bb = @r_height R (RNumT Reqb M) bb /\ Forall static_hazard sts /\ n <> 0%nat /\
  (exists p, in_rect bb p /\ forall h, In h sts -> ~ blocked (fact_of h) p) /\
  forall (BS : BSearch), @hpg_new R (RNumT Reqb M) nat BS bb sts n = Panic.
Proof.
  intros M. exists (strip_box 1000), [strip 1000 1 (1 / 2)], (Z.to_nat 10000).
  assert (Hn : INR (Z.to_nat 10000) = 10000) by (rewrite INR_IZR_INZ, Z2Nat.id by lia; reflexivity).
  split; [split; cbn; lra|]. split; [cbn; lra|]. split; [constructor; [apply strip_static; lra|constructor]|].
  split; [intros Z; rewrite Z in Hn; cbn in Hn; lra|]. split.
  - exists (Pt 500 0). split; [split; cbn; lra|]. intros h [<-|[]] Bl.
    destruct (rbox_inside 0 (- (1 / 2)) 1000 (1 / 2) (1 / 2) (Pt 500 0)) as [No Eo]; [cbn; lra|cbn; lra|].
    unfold blocked in Bl. cbn [f_ent ent_position fact_of h_ent fst snd f_poly h_shape a_obj strip] in Bl. destruct Bl as [Bl|Bl]; [exact (No Bl)|].
    unfold f_poly in Bl. cbn [fst snd] in Bl. congruence.
  - intros BS. apply strip_fails; [lra|lra|rewrite Hn; lra].
Qed.
