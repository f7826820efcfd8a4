(** The proximity grid of a rectangular bin: which cells there are, and that registration
    reaches all of them. *)
From Coq Require Import List Bool Arith Lia Permutation Sorted.
From Verif Require Import Base Num GeoModel HazardModel QTModel TransfModel HpgModel CdeModel BaseProofs CdeSpec CdeOpsProofs CdeHistProofs GeoSpec ParityProofs
  GeoPrimProofs PlaceSpec HpgSpec HpgGridProofs HpgFillProofs HpgCellProofs HpgRegProofs HpgHistProofs HpgGenProofs HpgThmProofs HpgFullProofs HpgTidyProofs HpgRectProofs HpgRoomProofs HpgFrameProofs.
From Coq Require Import Reals Lra.
From Verif Require Import GeoModel HazardModel QTModel TransfModel HpgModel CdeModel CdeSpec GeoSpec PlaceSpec HpgSpec.
Import ListNotations.
Local Open Scope R_scope.

Lemma floor_ex : forall dim t, 0 < dim -> 0 <= t -> exists i, dim * INR i <= t < dim * INR i + dim.
Proof.
  intros dim t Hd Ht. assert (K : forall n, t < dim * INR (S n) -> exists i, dim * INR i <= t < dim * INR i + dim).
  { induction n as [|n IH]; intros L.
    - exists 0%nat. cbn in L |- *. lra.
    - destruct (Rlt_le_dec t (dim * INR (S n))) as [L'|L']; [auto|]. exists (S n). rewrite (S_INR (S n)) in L. lra. }
  destruct (INR_above (t / dim)) as (n & Hn). apply (K n). rewrite S_INR. apply (Rmult_lt_compat_r dim) in Hn; [|exact Hd].
  unfold Rdiv in Hn. rewrite Rmult_assoc, Rinv_l in Hn by lra. lra.
Qed.
Lemma ceil_ex : forall dim t, 0 < dim -> 0 < t -> exists i, dim * INR i < t <= dim * INR i + dim.
Proof.
  intros dim t Hd Ht. destruct (floor_ex dim t Hd ltac:(lra)) as (i & A & B). destruct (Rle_lt_or_eq_dec _ _ A) as [L|E]; [exists i; lra|].
  destruct i as [|i]; [cbn in E; lra|]. exists i. rewrite S_INR in *. lra.
Qed.

(** a sorted list of spaced values without gaps *)
Lemma spaced : forall a dim l (P : nat -> Prop), 0 < dim -> StronglySorted Rlt l -> l <> [] ->
  (forall x, In x l -> exists j, x = mid a dim j /\ P j) -> (forall j, P j -> In (mid a dim j) l) ->
  (forall j1 j j2, P j1 -> P j2 -> (j1 <= j <= j2)%nat -> P j) ->
  exists j0 n, (0 < n)%nat /\ l = map (mid (a + dim * INR j0) dim) (seq 0 n) /\ forall j, P j <-> (j0 <= j < j0 + n)%nat.
Proof.
  intros a dim l P Hd Sl Ne H1 H2 Cv.
  assert (Inj : forall i j, mid a dim i = mid a dim j -> i = j).
  { intros i j E. destruct (Nat.lt_trichotomy i j) as [Q|[Q|Q]]; [|exact Q|]; apply (mid_lt a dim) in Q; lra. }
  assert (Le : forall i j, mid a dim i <= mid a dim j -> (i <= j)%nat).
  { intros i j E. destruct (le_lt_dec i j) as [Q|Q]; [exact Q|]. apply (mid_lt a dim) in Q; lra. }
  (* the extremes *)
  assert (Ex : exists lo hi, In lo l /\ In hi l /\ forall x, In x l -> lo <= x <= hi).
  { clear H1 H2 Cv. induction Sl as [|x l Sl IH Fx]; [congruence|]. rewrite Forall_forall in Fx. destruct l as [|y l].
    - exists x, x. split; [left; reflexivity|]. split; [left; reflexivity|]. intros z [<-|[]]. lra.
    - destruct IH as (lo & hi & A & B & C); [discriminate|]. exists x, hi. split; [left; reflexivity|]. split; [right; exact B|].
      intros z [<-|Hz]; [|specialize (Fx z Hz); specialize (C z Hz); lra]. specialize (Fx hi B). lra. }
  destruct Ex as (lo & hi & A & B & C). destruct (H1 lo A) as (j0 & -> & P0). destruct (H1 hi B) as (j1 & -> & P1).
  assert (L01 : (j0 <= j1)%nat) by (apply Le; exact (proj1 (C _ B))).
  assert (Pj : forall j, P j <-> (j0 <= j < j0 + S (j1 - j0))%nat).
  { intros j. split; [|intros Q; apply (Cv j0 j j1); auto; lia]. intros Q. apply H2, C in Q as (Q1 & Q2). apply Le in Q1, Q2. lia. }
  assert (Sh : forall i, mid (a + dim * INR j0) dim i = mid a dim (j0 + i)) by (intros; unfold mid; rewrite plus_INR; lra).
  exists j0, (S (j1 - j0)). split; [lia|]. split; [|exact Pj].
  apply ssorted_ext; [exact Sl|apply mids_sorted; exact Hd|]. intros x. rewrite in_map_iff. split.
  - intros Hx. destruct (H1 x Hx) as (j & -> & Q). apply Pj in Q. exists (j - j0)%nat. split; [rewrite Sh; f_equal; lia|apply in_seq; lia].
  - intros (i & <- & Hi). apply in_seq in Hi. rewrite Sh. apply H2. apply Pj. lia.
Qed.

Lemma in_rect_dec : forall (r : rect R) p, {in_rect r p} + {~ in_rect r p}.
Proof.
  intros r p. unfold in_rect. destruct (Rle_dec (x_min r) (px p)); [|right; lra]. destruct (Rle_dec (px p) (x_max r)); [|right; lra].
  destruct (Rle_dec (y_min r) (py p)); [|right; lra]. destruct (Rle_dec (py p) (y_max r)); [left; lra|right; lra].
Qed.

Lemma sq_lower : forall a b q, a <= b <= q -> (b - q) ^ 2 <= (a - q) ^ 2.
Proof. intros a b q H. nra. Qed.
Lemma sq_upper : forall a b q, q <= b <= a -> (b - q) ^ 2 <= (a - q) ^ 2.
Proof. intros a b q H. nra. Qed.
Lemma sq_here : forall a, (a - a) ^ 2 = 0.
Proof. intros a. rewrite Rminus_diag_eq by reflexivity. ring. Qed.
Lemma sq_small : forall x d, 0 < d -> x ^ 2 < d * d / 2 -> - d < x < d.
Proof. intros x d Hd L. split; nra. Qed.

Section BoxBin.
  Context {D : Type} {ED : EqD D} {BS : BSearch}.
  Hypothesis BSok : bsearch_ok BS.
  Variable M : R.
  #[local] Instance NMu : Num R := RNumT Reqb M.
  Local Notation cell := (cell R D).
  Local Notation hazard := (hazard R D).
  Local Notation fact := (CdeSpec.fact R D).
  Local Notation grid := (grid R cell).
  Local Notation static_hazard := (@HpgSpec.static_hazard D).

  (** cells are kept if they come close enough to the bin *)
  Definition comes_close (bb rr : rect R) (dim : R) (i j : nat) : Prop :=
    exists qx qy, x_min rr <= qx <= x_max rr /\ y_min rr <= qy <= y_max rr /\
      (mid (x_min bb) dim i - qx) ^ 2 + (mid (y_min bb) dim j - qy) ^ 2 < dim * dim / 2.

  Lemma edist_half : forall dim p q, 0 < dim -> (edist p q < half_diag dim <-> (px p - px q) ^ 2 + (py p - py q) ^ 2 < dim * dim / 2).
  Proof.
    intros dim p q Hd. destruct (half_diag_sq dim Hd) as (H0 & H2). pose proof (edist_sq p q) as S2. pose proof (edist_nonneg p q). rewrite <- S2.
    split; intros L; [nra|]. destruct (Rlt_le_dec (edist p q) (half_diag dim)) as [Q|Q]; [exact Q|]. exfalso. nra.
  Qed.

  Lemma kept_close : forall bb rr (z : hazard) dim i j, 0 < dim -> static_hazard z -> h_ent z = BinExterior -> p_bbox (a_obj (h_shape z)) = rr -> clear_box rr [z] ->
    (kept M bb [z] dim i j <-> comes_close bb rr dim i j).
  Proof.
    intros bb rr z dim i j Hd Sz Ez Bz Cl. pose proof Sz as (So & Np & _).
    assert (Cp : r_centroid (square bb dim i j) = Pt (mid (x_min bb) dim i) (mid (y_min bb) dim j)).
    { assert (Q := square_centroid M bb dim i j). exact Q. }
    destruct So as (Nd & (Pb & Bv)). rewrite Bz in Pb, Bv. destruct (half_diag_sq dim Hd) as (H0 & H2).
    split.
    - intros (d & E & L). set (p := r_centroid (square bb dim i j)) in *.
      destruct (p_dist_border_ok _ p (proj1 Sz) Np) as (pos & x & Ex & [(q & Bq & Dq) _] & Po).
      assert (Iq : in_rect rr q) by (eapply border_in_box; [exact Bv|exact Bq]).
      assert (Near : forall u, in_rect rr u -> edist p u < half_diag dim -> comes_close bb rr dim i j).
      { intros u (U1 & U2) Lu. apply (edist_half dim p u Hd) in Lu. rewrite Cp in Lu. exists (px u), (py u). auto. }
      destruct pos.
      + assert (d = - x) as ->.
        { unfold distance_to_hazard in E. cbn [rmapM] in E.
          assert (Ex' : @p_dist_border R (NMg M) (a_obj (h_shape z)) p = Ok (Exterior, x)) by exact Ex.
          unfold p in E, Ex'. rewrite Ex' in E. cbn [rbind] in E. rewrite Ez in E. cbn in E. injection E as <-. reflexivity. }
        apply (Near q Iq). lra.
      + apply (Near p); [|assert (edist p p <= 0) by (apply edist_le; lra); lra].
        destruct (in_rect_dec rr p) as [I|I]; [exact I|].
        assert (Nb : ~ on_border (p_pts (a_obj (h_shape z))) p) by (intros B; apply I; eapply border_in_box; eassumption).
        destruct Po as [B|I']; [contradiction|].
        destruct (even_odd_box rr _ p Bv Nb (proj1 I' eq_refl)) as (O1 & O2). split; lra.
    - intros (qx & qy & Qx & Qy & L). set (p := r_centroid (square bb dim i j)) in *. destruct Pb as (Pbx & Pby).
      (* a point inside the bin is close as well *)
      set (q := Pt qx qy). set (o := Pt ((x_min rr + x_max rr) / 2) ((y_min rr + y_max rr) / 2)).
      assert (Lq : edist p q < half_diag dim) by (apply edist_half; [exact Hd|rewrite Cp; exact L]).
      set (e := half_diag dim - edist p q). set (t := e / (e + edist q o + 1)).
      pose proof (edist_nonneg q o) as Eo. assert (E0 : 0 < e) by (unfold e; lra).
      assert (T : 0 < t <= 1 /\ t * edist q o < e).
      { assert (I0 : 0 < / (e + edist q o + 1)) by (apply Rinv_0_lt_compat; lra). assert (T1 : t * (e + edist q o + 1) = e) by (unfold t; field; lra).
        assert (T0 : 0 < t) by (unfold t, Rdiv; nra). split; [split; [exact T0|]|]; nra. }
      destruct T as (T01 & Te).
      set (u := Pt (qx + t * (px o - qx)) (qy + t * (py o - qy))).
      assert (Ou : open_box rr u) by (unfold open_box, u, o; cbn [px py]; split; nra).
      assert (Du : edist q u <= t * edist q o).
      { apply edist_le; [nra|]. unfold u, q at 1 2. cbn [px py]. replace (t * edist q o * (t * edist q o)) with (t * t * (edist q o * edist q o)) by ring.
        rewrite edist_sq. unfold q. cbn [px py]. lra. }
      pose proof (edist_tri p q u) as Tr.
      assert (Cu : ~ blocked (fact_of z) u) by (apply (Cl z u (or_introl eq_refl) Ou)).
      destruct (dist_total M p [z]) as (d & E & h & x & Hh & Hx); [constructor; [exact Sz|constructor]|discriminate|].
      exists d. split; [exact E|]. destruct Hx as [(-> & X0)|(-> & Bl)]; [lra|].
      destruct (Rlt_le_dec x (half_diag dim)) as [Lx|Lx]; [lra|]. exfalso. apply Cu. destruct Hh as [<-|[]]. apply Bl. unfold e in Te. lra.
  Qed.

  (** *** the grid of a rectangular bin *)
  Lemma box_clipped : forall bb rr (sts : list hazard) dim (g : hpg R D), proper bb -> sub_box rr bb -> Forall static_hazard sts -> oblong_bin rr sts ->
    fresh M bb sts dim g -> (4 < length (g_cells (hg_grid g)))%nat -> exists x0 y0 nx ny, clipped rr x0 y0 dim nx ny (hg_grid g).
  Proof.
    intros bb rr sts dim g [Px Py] (W1 & W2 & W3 & W4) St (z & Fz & Ez & Bz & Cl) F Big. pose proof (fr_dim _ _ _ _ _ F) as Hd.
    assert (Sz : static_hazard z).
    { rewrite Forall_forall in St. apply St. assert (Q : In z (filter (fun h => ent_universal (h_ent h)) sts)) by (rewrite Fz; left; reflexivity). apply filter_In in Q. apply Q. }
    assert (Pr : proper rr) by (rewrite <- Bz; apply Sz). destruct Pr as (Rx & Ry).
    pose proof (fr_wf _ _ _ _ _ F) as [Sr Sc R0 C0 Ln]. set (gr := hg_grid g) in *.
    set (w := r_width bb / dim). set (h := r_height bb / dim).
    assert (Ew : w * dim = x_max bb - x_min bb) by (unfold w, r_width, Rdiv; cbn [fsub NMg NMu RNumT]; rewrite Rmult_assoc, Rinv_l by lra; lra).
    assert (Eh : h * dim = y_max bb - y_min bb) by (unfold h, r_height, Rdiv; cbn [fsub NMg NMu RNumT]; rewrite Rmult_assoc, Rinv_l by lra; lra).
    assert (Kp : forall i j, INR i < w -> INR j < h -> ((exists c, In (Some c) (g_cells gr) /\ c_bbox' c = square bb dim i j) <-> comes_close bb rr dim i j)).
    { intros i j Hi Hj. rewrite <- (kept_close bb rr z dim i j Hd Sz Ez Bz Cl), <- Fz. apply (fr_kept _ _ _ _ _ F); assumption. }
    assert (CenS : forall i j n c, cell_at gr n = Some c -> c_bbox' c = square bb dim i j -> c_cen c = Pt (mid (x_min bb) dim i) (mid (y_min bb) dim j)).
    { intros i j n c En Eb. destruct (fr_cells _ _ _ _ _ F n c En) as (Sc' & _). rewrite (sc_cen _ _ _ Sc'), Eb. unfold square. cbn [x_min x_max y_min y_max].
      unfold mid. f_equal; lra. }
    assert (Inj : forall a i j, mid a dim i = mid a dim j -> i = j).
    { intros a i j E. destruct (Nat.lt_trichotomy i j) as [Q|[Q|Q]]; [|exact Q|]; apply (mid_lt a dim) in Q; lra. }
    (* a cell at an index *)
    assert (Ix : forall n c, cell_at gr n = Some c -> exists r cc x y, n = (r * n_cols gr + cc)%nat /\ nth_error (g_rows gr) r = Some y /\ nth_error (g_cols gr) cc = Some x /\ c_cen c = Pt x y).
    { intros n c En. assert (Ln' : (n < n_rows gr * n_cols gr)%nat).
      { rewrite <- Ln. apply nth_error_Some. unfold cell_at in En. intros Z. rewrite Z in En. discriminate. }
      assert (Cp : (0 < n_cols gr)%nat) by (unfold n_cols; destruct (g_cols gr); [congruence|cbn; lia]).
      assert (Dn := Nat.div_mod n (n_cols gr) ltac:(lia)). set (r := Nat.div n (n_cols gr)) in *. set (cc := Nat.modulo n (n_cols gr)) in *.
      assert (Hcc : (cc < n_cols gr)%nat) by (apply Nat.mod_upper_bound; lia). assert (Hr : (r < n_rows gr)%nat) by (apply Nat.div_lt_upper_bound; lia).
      destruct (nth_error (g_rows gr) r) as [y|] eqn:Ey; [|apply nth_error_None in Ey; unfold n_rows in Hr; lia].
      destruct (nth_error (g_cols gr) cc) as [x|] eqn:Exx; [|apply nth_error_None in Exx; unfold n_cols in Hcc; lia].
      exists r, cc, x, y. assert (En' : n = (r * n_cols gr + cc)%nat) by lia. split; [exact En'|]. split; [exact Ey|]. split; [exact Exx|].
      rewrite En' in En. apply (fr_at _ _ _ _ _ F r cc y x Ey Exx c En). }
    assert (At : forall i j, INR i < w -> INR j < h -> comes_close bb rr dim i j -> exists n c, cell_at gr n = Some c /\ c_cen c = Pt (mid (x_min bb) dim i) (mid (y_min bb) dim j)).
    { intros i j Hi Hj Cc. apply Kp in Cc as (c & Hc & Eb); [|assumption|assumption]. apply In_nth_error in Hc as (n & En).
      assert (En' : cell_at gr n = Some c) by (unfold cell_at; rewrite En; reflexivity). exists n, c. split; [exact En'|eapply CenS; eassumption]. }
    (* which rows and columns there are *)
    set (PR := fun j => INR j < h /\ exists i, INR i < w /\ comes_close bb rr dim i j).
    set (PC := fun i => INR i < w /\ exists j, INR j < h /\ comes_close bb rr dim i j).
    assert (Cells : forall c, In (Some c) (g_cells gr) -> exists i j, INR i < w /\ INR j < h /\ comes_close bb rr dim i j /\ c_cen c = Pt (mid (x_min bb) dim i) (mid (y_min bb) dim j) /\ c_rad c = half_diag dim).
    { intros c Hc. assert (Hc' : exists n, cell_at gr n = Some c) by (apply In_nth_error in Hc as (n & En); exists n; unfold cell_at; rewrite En; reflexivity).
      destruct Hc' as (n & En). destruct (fr_cells _ _ _ _ _ F n c En) as (_ & _ & Rd & i & j & Eb & Hi & Hj). exists i, j. split; [exact Hi|]. split; [exact Hj|].
      split; [apply Kp; [exact Hi|exact Hj|exists c; auto]|]. split; [eapply CenS; eassumption|exact Rd]. }
    destruct (spaced (y_min bb) dim (g_rows gr) PR Hd Sr R0) as (j0 & ny & Hny & Er & PRi).
    { intros y Hy. destruct (fr_row_cell _ _ _ _ _ F y Hy) as (c & Hc & <-). destruct (Cells c Hc) as (i & j & Hi & Hj & Cc & Ec & _). exists j. rewrite Ec. split; [reflexivity|].
      split; [exact Hj|]. exists i. auto. }
    { intros j (Hj & i & Hi & Cc). destruct (At i j Hi Hj Cc) as (n & c & En & Ec). destruct (Ix n c En) as (r & cc & x & y & _ & Ey & _ & Ec').
      rewrite Ec in Ec'. injection Ec' as _ ->. eapply nth_error_In. exact Ey. }
    { intros j1 j j2 (H1 & i1 & Hi1 & qx1 & qy1 & A1 & B1 & L1) (H2 & i2 & Hi2 & qx2 & qy2 & A2 & B2 & L2) [J1 J2].
      split; [apply le_INR in J2; lra|]. apply (mid_le (y_min bb) dim) in J1; [|exact Hd]. apply (mid_le (y_min bb) dim) in J2; [|exact Hd].
      destruct (Rlt_le_dec (mid (y_min bb) dim j) (y_min rr)) as [K|K]; [|destruct (Rlt_le_dec (y_max rr) (mid (y_min bb) dim j)) as [K'|K']].
      - exists i1. split; [exact Hi1|]. exists qx1, qy1. split; [exact A1|]. split; [exact B1|]. pose proof (sq_lower (mid (y_min bb) dim j1) (mid (y_min bb) dim j) qy1 ltac:(lra)). lra.
      - exists i2. split; [exact Hi2|]. exists qx2, qy2. split; [exact A2|]. split; [exact B2|]. pose proof (sq_upper (mid (y_min bb) dim j2) (mid (y_min bb) dim j) qy2 ltac:(lra)). lra.
      - exists i1. split; [exact Hi1|]. exists qx1, (mid (y_min bb) dim j). split; [exact A1|]. split; [lra|]. rewrite sq_here. pose proof (pow2_ge_0 (mid (y_min bb) dim j1 - qy1)). lra. }
    destruct (spaced (x_min bb) dim (g_cols gr) PC Hd Sc C0) as (i0 & nx & Hnx & Ecl & PCi).
    { intros x Hx. destruct (fr_col_cell _ _ _ _ _ F x Hx) as (c & Hc & <-). destruct (Cells c Hc) as (i & j & Hi & Hj & Cc & Ec & _). exists i. rewrite Ec. split; [reflexivity|].
      split; [exact Hi|]. exists j. auto. }
    { intros i (Hi & j & Hj & Cc). destruct (At i j Hi Hj Cc) as (n & c & En & Ec). destruct (Ix n c En) as (r & cc & x & y & _ & _ & Exx & Ec').
      rewrite Ec in Ec'. injection Ec' as -> _. eapply nth_error_In. exact Exx. }
    { intros i1 i i2 (H1 & j1 & Hj1 & qx1 & qy1 & A1 & B1 & L1) (H2 & j2 & Hj2 & qx2 & qy2 & A2 & B2 & L2) [J1 J2].
      split; [apply le_INR in J2; lra|]. apply (mid_le (x_min bb) dim) in J1; [|exact Hd]. apply (mid_le (x_min bb) dim) in J2; [|exact Hd].
      destruct (Rlt_le_dec (mid (x_min bb) dim i) (x_min rr)) as [K|K]; [|destruct (Rlt_le_dec (x_max rr) (mid (x_min bb) dim i)) as [K'|K']].
      - exists j1. split; [exact Hj1|]. exists qx1, qy1. split; [exact A1|]. split; [exact B1|]. pose proof (sq_lower (mid (x_min bb) dim i1) (mid (x_min bb) dim i) qx1 ltac:(lra)). lra.
      - exists j2. split; [exact Hj2|]. exists qx2, qy2. split; [exact A2|]. split; [exact B2|]. pose proof (sq_upper (mid (x_min bb) dim i2) (mid (x_min bb) dim i) qx2 ltac:(lra)). lra.
      - exists j1. split; [exact Hj1|]. exists (mid (x_min bb) dim i), qy1. split; [lra|]. split; [exact B1|]. rewrite sq_here. pose proof (pow2_ge_0 (mid (x_min bb) dim i1 - qx1)). lra. }
    assert (Nr : n_rows gr = ny) by (unfold n_rows; rewrite Er, map_length, seq_length; reflexivity).
    assert (Nc : n_cols gr = nx) by (unfold n_cols; rewrite Ecl, map_length, seq_length; reflexivity).
    set (x0 := x_min bb + dim * INR i0) in *. set (y0 := y_min bb + dim * INR j0) in *.
    assert (Shx : forall i, mid x0 dim i = mid (x_min bb) dim (i0 + i)) by (intros; unfold x0, mid; rewrite plus_INR; lra).
    assert (Shy : forall j, mid y0 dim j = mid (y_min bb) dim (j0 + j)) by (intros; unfold y0, mid; rewrite plus_INR; lra).
    (* cells by row and column *)
    assert (Cat : forall r c ce, (r < ny)%nat -> (c < nx)%nat -> cell_at gr (r * nx + c) = Some ce -> c_cen ce = Pt (mid x0 dim c) (mid y0 dim r) /\ c_rad ce = half_diag dim).
    { intros r c ce Hr Hc Ece. split; [|apply (fr_cells _ _ _ _ _ F _ _ Ece)]. rewrite <- Nc in Ece.
      apply (fr_at _ _ _ _ _ F r c (mid y0 dim r) (mid x0 dim c)); [| |exact Ece]; fold gr; [rewrite Er|rewrite Ecl]; apply mids_nth; assumption. }
    assert (Have : forall r c, (r < ny)%nat -> (c < nx)%nat -> comes_close bb rr dim (i0 + c) (j0 + r) -> cell_at gr (r * nx + c) <> None).
    { intros r c Hr Hc Cc. assert (Q1 : PR (j0 + r)%nat) by (apply PRi; lia). assert (Q2 : PC (i0 + c)%nat) by (apply PCi; lia).
      destruct (At (i0 + c)%nat (j0 + r)%nat (proj1 Q2) (proj1 Q1) Cc) as (n & ce & En & Ec). destruct (Ix n ce En) as (r' & c' & x & y & En' & Ey & Exx & Ec'). rewrite Ec in Ec'. injection Ec' as Qx Qy.
      assert (r' = r).
      { assert (L : (r' < ny)%nat) by (rewrite <- Nr; unfold n_rows; apply nth_error_Some; congruence).
        rewrite Er, mids_nth in Ey by exact L. injection Ey as Ey. rewrite Shy in Ey. rewrite <- Ey in Qy. apply Inj in Qy. lia. }
      assert (c' = c).
      { assert (L : (c' < nx)%nat) by (rewrite <- Nc; unfold n_cols; apply nth_error_Some; congruence).
        rewrite Ecl, mids_nth in Exx by exact L. injection Exx as Exx. rewrite Shx in Exx. rewrite <- Exx in Qx. apply Inj in Qx. lia. }
      subst r' c'. rewrite Nc in En'. rewrite <- En', En. discriminate. }
    (* columns and rows that meet the bin *)
    assert (Hit : forall i j, (exists x, x_min rr < x < x_max rr /\ x_min bb + dim * INR i < x < x_min bb + dim * INR i + dim) ->
                              (exists y, y_min rr < y < y_max rr /\ y_min bb + dim * INR j < y < y_min bb + dim * INR j + dim) -> PR j /\ PC i).
    { intros i j (x & X1 & X2) (y & Y1 & Y2). assert (Hi : INR i < w) by (apply Rmult_lt_reg_r with dim; [exact Hd|]; lra).
      assert (Hj : INR j < h) by (apply Rmult_lt_reg_r with dim; [exact Hd|]; lra).
      assert (Cc : comes_close bb rr dim i j).
      { exists x, y. split; [lra|]. split; [lra|]. unfold mid.
        assert (Q1 : Rabs (x_min bb + dim * (INR i + / 2) - x) < dim / 2) by (apply Rabs_def1; lra).
        assert (Q2 : Rabs (y_min bb + dim * (INR j + / 2) - y) < dim / 2) by (apply Rabs_def1; lra).
        apply Rabs_def2 in Q1. apply Rabs_def2 in Q2. nra. }
      split; [split; [exact Hj|exists i; auto]|split; [exact Hi|exists j; auto]]. }
    assert (Lo : forall o a e, o <= a -> a < e -> exists i, o + dim * INR i <= a /\ exists x, a < x < e /\ o + dim * INR i < x < o + dim * INR i + dim).
    { intros o a e H1 H2. destruct (floor_ex dim (a - o) Hd ltac:(lra)) as (i & A & B). exists i. split; [lra|].
      exists ((a + Rmin e (o + dim * INR i + dim)) / 2). unfold Rmin. destruct (Rle_dec e (o + dim * INR i + dim)); lra. }
    assert (Hi : forall o a e, o <= a -> a < e -> exists i, e <= o + dim * INR i + dim /\ exists x, a < x < e /\ o + dim * INR i < x < o + dim * INR i + dim).
    { intros o a e H1 H2. destruct (ceil_ex dim (e - o) Hd ltac:(lra)) as (i & A & B). exists i. split; [lra|].
      exists ((e + Rmax a (o + dim * INR i)) / 2). unfold Rmax. destruct (Rle_dec a (o + dim * INR i)); lra. }
    destruct (Lo (x_min bb) (x_min rr) (x_max rr) W1 Rx) as (il & Il & Ilx). destruct (Hi (x_min bb) (x_min rr) (x_max rr) W1 Rx) as (ih & Ih & Ihx).
    destruct (Lo (y_min bb) (y_min rr) (y_max rr) W2 Ry) as (jl & Jl & Jly). destruct (Hi (y_min bb) (y_min rr) (y_max rr) W2 Ry) as (jh & Jh & Jhy).
    destruct (Hit il jl Ilx Jly) as (QR1 & QC1). destruct (Hit ih jh Ihx Jhy) as (QR2 & QC2). apply PRi in QR1, QR2. apply PCi in QC1, QC2.
    exists x0, y0, nx, ny. split; auto.
    - rewrite Ln, Nr, Nc in Big. destruct (le_lt_dec nx 2) as [L1|L1]; [|left; exact L1]. destruct (le_lt_dec ny 2) as [L2|L2]; [|right; exact L2]. nia.
    - split.
      + assert (Q : (i0 <= il)%nat) by lia. apply le_INR in Q. unfold x0. nra.
      + assert (Q : (S ih <= i0 + nx)%nat) by lia. apply le_INR in Q. rewrite S_INR, plus_INR in Q. unfold x0. nra.
    - split.
      + assert (Q : (j0 <= jl)%nat) by lia. apply le_INR in Q. unfold y0. nra.
      + assert (Q : (S jh <= j0 + ny)%nat) by lia. apply le_INR in Q. rewrite S_INR, plus_INR in Q. unfold y0. nra.
    - assert (Q1 : PC (i0 + 0)%nat) by (apply PCi; lia). assert (Q2 : PC (i0 + Nat.pred nx)%nat) by (apply PCi; lia).
      destruct Q1 as (_ & j1 & _ & qx1 & qy1 & A1 & _ & L1). destruct Q2 as (_ & j2 & _ & qx2 & qy2 & A2 & _ & L2). rewrite <- Shx in L1, L2.
      pose proof (sq_small (mid x0 dim 0 - qx1) dim Hd) as S1. pose proof (sq_small (mid x0 dim (Nat.pred nx) - qx2) dim Hd) as S2.
      pose proof (pow2_ge_0 (mid (y_min bb) dim j1 - qy1)). pose proof (pow2_ge_0 (mid (y_min bb) dim j2 - qy2)). specialize (S1 ltac:(lra)). specialize (S2 ltac:(lra)). split; lra.
    - assert (Q1 : PR (j0 + 0)%nat) by (apply PRi; lia). assert (Q2 : PR (j0 + Nat.pred ny)%nat) by (apply PRi; lia).
      destruct Q1 as (_ & j1 & _ & qx1 & qy1 & _ & A1 & L1). destruct Q2 as (_ & j2 & _ & qx2 & qy2 & _ & A2 & L2). rewrite <- Shy in L1, L2.
      pose proof (sq_small (mid y0 dim 0 - qy1) dim Hd) as S1. pose proof (sq_small (mid y0 dim (Nat.pred ny) - qy2) dim Hd) as S2.
      pose proof (pow2_ge_0 (mid (x_min bb) dim j1 - qx1)). pose proof (pow2_ge_0 (mid (x_min bb) dim j2 - qx2)). specialize (S1 ltac:(lra)). specialize (S2 ltac:(lra)). split; lra.
    - intros r c Hr Hc B. apply Have; auto. assert (Q : PR (j0 + r)%nat) by (apply PRi; lia). destruct Q as (_ & i & _ & qx & qy & _ & A & L).
      rewrite Shx in B. exists (mid (x_min bb) dim (i0 + c)), qy. split; [exact B|]. split; [exact A|]. rewrite sq_here. pose proof (pow2_ge_0 (mid (x_min bb) dim i - qx)). lra.
    - intros r c Hr Hc B. apply Have; auto. assert (Q : PC (i0 + c)%nat) by (apply PCi; lia). destruct Q as (_ & j & _ & qx & qy & A & _ & L).
      rewrite Shy in B. exists qx, (mid (y_min bb) dim (j0 + r)). split; [exact A|]. split; [exact B|]. rewrite sq_here. pose proof (pow2_ge_0 (mid (y_min bb) dim j - qy)). lra.
    - intros r Hr. assert (Q : PR (j0 + r)%nat) by (apply PRi; lia). destruct Q as (Hj & i & Hi' & Cc). assert (Q : PC i) by (split; [exact Hi'|exists (j0 + r)%nat; auto]).
      apply PCi in Q. exists (i - i0)%nat. split; [lia|]. apply Have; [exact Hr|lia|]. replace (i0 + (i - i0))%nat with i by lia. exact Cc.
    - intros c Hc. assert (Q : PC (i0 + c)%nat) by (apply PCi; lia). destruct Q as (Hi' & j & Hj & Cc). assert (Q : PR j) by (split; [exact Hj|exists (i0 + c)%nat; auto]).
      apply PRi in Q. exists (j - j0)%nat. split; [lia|]. apply Have; [lia|exact Hc|]. replace (j0 + (j - j0))%nat with j by lia. exact Cc.
  Qed.

  (** *** how fine the grid is *)
  Lemma loop_factor : forall left bb (hs : list hazard) n cf step prev out, gen_loop left bb hs n cf step prev = Ok out -> 0 <= step ->
    (match prev with None => step <= 1 / 10 | Some _ => step <= 1 / 20 end) ->
    exists cf', gen_attempt bb hs n cf' = Ok out /\ cf' <= cf + INR left / 20.
  Proof.
    induction left as [|left IH]; intros bb hs n cf step prev out E Hs Hp; cbn [gen_loop] in E; apply rbind_ok in E as (cells & Ec & E).
    - injection E as <-. exists cf. split; [exact Ec|cbn; lra].
    - set (step' := match prev with Some p => if cmp_eqb p (length cells ?= n)%nat then step else fdiv step f2 | None => fdiv step f2 end) in *.
      assert (S' : 0 <= step' <= 1 / 20).
      { assert (Hf : fdiv step f2 = step / 2) by reflexivity.
        unfold step'. rewrite Hf. destruct prev as [p|]; [destruct (cmp_eqb p _)|]; lra. }
      rewrite S_INR. pose proof (pos_INR left). destruct (Nat.compare_spec (length cells) n) as [Q|Q|Q].
      + injection E as <-. exists cf. split; [exact Ec|lra].
      + apply IH in E as (cf' & Ea & L); [|apply S'|apply S']. exists cf'. split; [exact Ea|]. cbn [fsub NMu RNumT] in L. lra.
      + apply IH in E as (cf' & Ea & L); [|apply S'|apply S']. exists cf'. split; [exact Ea|]. cbn [fadd NMu RNumT] in L. lra.
  Qed.
  Lemma grid_dim : forall bb (sts : list hazard) n g, proper bb -> sound_statics sts -> hpg_new bb sts n = Ok g ->
    exists dim, fresh M bb sts dim g /\ 0 < INR n /\ dim * dim * INR n <= 81 / 16 * r_area bb.
  Proof.
    intros bb sts n g Pb So E. destruct (hpg_new_ok BSok M bb sts n g Pb So E) as (dim & F). exists dim. split; [exact F|].
    pose proof (fr_dim _ _ _ _ _ F) as Hd. pose proof (fr_rad _ _ _ _ _ F) as Rd.
    unfold hpg_new in E. destruct n as [|n]; [discriminate|]. assert (N0 : 0 < INR (S n)) by (apply lt_0_INR; lia). split; [exact N0|].
    apply rbind_ok in E as (rects & Eg & E). apply rbind_ok in E as (r0 & Er & E). apply rbind_ok in E as (els & _ & E). apply rbind_ok in E as (gr & _ & E). injection E as <-. cbn [hg_rad] in Rd.
    unfold generate in Eg. destruct (flt f0 (r_area bb)) eqn:Ea; [|discriminate].
    assert (A0 : 0 < r_area bb) by (apply Rltb_spec; exact Ea).
    assert (T : fdiv f1 (fofN 10) = 1 / 10) by (cbn; field). rewrite T in Eg.
    assert (Eg' : exists cf', gen_attempt bb (filter (fun h => ent_universal (h_ent h)) sts) (S n) cf' = Ok rects /\ cf' <= 9 / 4).
    { apply loop_factor in Eg as (cf' & Eg & L); [|lra|lra]. exists cf'. split; [exact Eg|]. cbn [f1 NMu RNumT] in L.
      change MAX_ITERATIONS with 25%nat in L. rewrite (INR_IZR_INZ 25) in L. cbn in L. lra. }
    destruct Eg' as (cf & Ea' & Lc).
    destruct (gen_attempt_ok M _ _ _ _ _ Ea') as (_ & Hr & _). destruct rects as [|r rects]; [discriminate|]. cbn [hd_error expect] in Er. injection Er as <-.
    destruct (proj1 (Hr r) (or_introl eq_refl)) as (i & j & Hi & _ & Q & _). subst r.
    set (s := sqrt (r_area bb / INR (S n))).
    assert (Qp : 0 < r_area bb / INR (S n)) by (apply Rmult_lt_0_compat; [exact A0|apply Rinv_0_lt_compat; exact N0]).
    assert (S0 : 0 < s) by (apply sqrt_lt_R0; exact Qp). assert (S2 : s * s = r_area bb / INR (S n)) by (apply sqrt_sqrt; lra).
    assert (Gd : @gen_dim R (NMg M) bb (S n) cf = s * cf) by reflexivity. set (d := @gen_dim R (NMg M) bb (S n) cf) in *.
    assert (Dp : 0 < d).
    { pose proof (pos_INR i). destruct (Rlt_le_dec 0 d) as [L|L]; [exact L|]. exfalso. destruct Pb as (Px & _).
      assert (Wp : 0 < @r_width R (NMg M) bb) by (unfold r_width; cbn [fsub NMg RNumT]; lra). destruct (Req_dec d 0) as [Z|Z].
      - rewrite Z in Hi. unfold Rdiv in Hi. rewrite Rinv_0 in Hi. lra.
      - assert (L' : 0 < - d) by lra. apply Rinv_0_lt_compat in L'. rewrite Rinv_opp in L'. unfold Rdiv in Hi. nra. }
    assert (Hdd : half_diag dim = half_diag d).
    { rewrite <- Rd, <- (square_diameter M bb d i j) by lra. unfold f2. cbn [fdiv fadd f1 NMu RNumT]. replace (1 + 1) with 2 by lra. reflexivity. }
    destruct (half_diag_sq dim Hd) as (_ & A2). destruct (half_diag_sq d Dp) as (_ & B2). rewrite Hdd, B2 in A2. rewrite <- A2, Gd.
    assert (C0 : 0 < cf) by (rewrite Gd in Dp; nra). assert (C2 : cf * cf <= 81 / 16) by nra.
    replace (s * cf * (s * cf) * INR (S n)) with (cf * cf * (s * s * INR (S n))) by ring. rewrite S2.
    replace (r_area bb / INR (S n) * INR (S n)) with (r_area bb) by (field; lra). apply Rmult_le_compat_r; lra.
  Qed.
  Lemma fresh_many : forall bb rr (sts : list hazard) dim (g : hpg R D), sub_box rr bb -> proper rr -> Forall static_hazard sts ->
    (exists h, In h sts /\ ent_universal (h_ent h) = true) -> clear_box rr (filter (fun h => ent_universal (h_ent h)) sts) ->
    fresh M bb sts dim g -> r_area rr <= INR (length (g_cells (hg_grid g))) * (dim * dim).
  Proof.
    intros bb rr sts dim g (W1 & W2 & W3 & W4) (Px & Py) St (h0 & Hh0 & U0) Cl F. pose proof (fr_dim _ _ _ _ _ F) as Hd. set (hs := filter (fun h => ent_universal (h_ent h)) sts) in *.
    assert (Sh : Forall static_hazard hs) by (apply Forall_forall; intros h Hh; apply filter_In in Hh; rewrite Forall_forall in St; apply St, Hh).
    assert (Ne : hs <> []) by (intros Z; assert (K : In h0 hs) by (apply filter_In; auto); rewrite Z in K; destruct K).
    destruct (columns (x_min bb) (x_min rr) (x_max rr) (x_max bb) dim W1 Px W3 Hd) as (i0 & ki & Ki & Hi).
    destruct (columns (y_min bb) (y_min rr) (y_max rr) (y_max bb) dim W2 Py W4 Hd) as (j0 & kj & Kj & Hj).
    set (l := map (fun ij => Some (square bb dim (fst ij) (snd ij))) (list_prod (seq i0 ki) (seq j0 kj))).
    assert (L : (ki * kj <= length (g_cells (hg_grid g)))%nat).
    { replace (ki * kj)%nat with (length l) by (unfold l; rewrite map_length, prod_length, !seq_length; reflexivity).
      rewrite <- (map_length (option_map (fun c => c_bbox' c))). apply NoDup_incl_length.
      - unfold l. apply FinFun.Injective_map_NoDup.
        + intros [a b] [a' b'] Q. cbn [fst snd] in Q. unfold square in Q. injection Q as Q1 Q2 _ _. f_equal; apply INR_eq; apply Rmult_eq_reg_l with dim; lra.
        + apply NoDup_prod; apply seq_NoDup.
      - intros r Hin. unfold l in Hin. apply in_map_iff in Hin as ((i & j) & <- & Hin). cbn [fst snd]. apply in_prod_iff in Hin as (Hin1 & Hin2).
        destruct (Hi i Hin1) as (Bi & x & X1 & X2). destruct (Hj j Hin2) as (Bj & y & Y1 & Y2).
        assert (Kp : kept M bb hs dim i j) by (apply (free_kept M bb hs dim i j (Pt x y)); try assumption; intros h Hh; apply (Cl h (Pt x y) Hh); split; assumption).
        apply (fr_kept _ _ _ _ _ F i j Bi Bj) in Kp as (c & Hc & Bc). apply in_map_iff. exists (Some c). split; [cbn [option_map]; rewrite Bc; reflexivity|exact Hc]. }
    apply le_INR in L. rewrite mult_INR in L. unfold r_area, r_width, r_height. cbn [fmul fsub NMu RNumT].
    assert (A1 : x_max rr - x_min rr <= INR ki * dim). { apply (Rmult_le_compat_r dim) in Ki; [|lra]. replace ((x_max rr - x_min rr) / dim * dim) with (x_max rr - x_min rr) in Ki by (field; lra). exact Ki. }
    assert (A2 : y_max rr - y_min rr <= INR kj * dim). { apply (Rmult_le_compat_r dim) in Kj; [|lra]. replace ((y_max rr - y_min rr) / dim * dim) with (y_max rr - y_min rr) in Kj by (field; lra). exact Kj. }
    apply Rle_trans with ((INR ki * dim) * (INR kj * dim)); [apply Rmult_le_compat; lra|].
    replace (INR ki * dim * (INR kj * dim)) with (INR ki * INR kj * (dim * dim)) by ring. apply Rmult_le_compat_r; [nra|exact L].
  Qed.
  Lemma box_bin_facts : forall rr (sts : list hazard), oblong_bin rr sts -> Forall static_hazard sts ->
    proper rr /\ (exists h, In h sts /\ ent_universal (h_ent h) = true) /\ clear_box rr (filter (fun h => ent_universal (h_ent h)) sts).
  Proof.
    intros rr sts (z & Fz & Ez & Bz & Cl) St. assert (Q : In z (filter (fun h => ent_universal (h_ent h)) sts)) by (rewrite Fz; left; reflexivity).
    apply filter_In in Q as (Q1 & Q2). rewrite Forall_forall in St. destruct (St z Q1) as ((_ & Pb & _) & _). rewrite Bz in Pb. split; [exact Pb|].
    split; [exists z; auto|]. rewrite Fz. exact Cl.
  Qed.
  (** the grid of a bin that is not too small for the number of cells asked for has more than four places *)
  Lemma box_fine : forall bb rr (sts : list hazard) n g, proper bb -> sub_box rr bb -> Forall static_hazard sts -> oblong_bin rr sts ->
    21 * r_area bb <= INR n * r_area rr -> hpg_new bb sts n = Ok g -> (4 < length (g_cells (hg_grid g)))%nat.
  Proof.
    intros bb rr sts n g Pb Sb St Bb Ar E. destruct (box_bin_facts rr sts Bb St) as (Pr & Hu & Cl).
    assert (So : sound_statics sts) by (eapply Forall_impl; [|exact St]; intros h (So & _); exact So).
    destruct (grid_dim bb sts n g Pb So E) as (dim & F & N0 & Dm). pose proof (fresh_many bb rr sts dim g Sb Pr St Hu Cl F) as Mn.
    assert (A0 : 0 < r_area bb). { destruct Pb. unfold r_area, r_width, r_height. cbn [fmul fsub NMu RNumT]. apply Rmult_lt_0_compat; lra. }
    destruct (le_lt_dec (length (g_cells (hg_grid g))) 4) as [L|L]; [|exact L]. exfalso. apply le_INR in L. rewrite (INR_IZR_INZ 4) in L. cbn in L.
    pose proof (fr_dim _ _ _ _ _ F) as Hd. set (k := INR (length (g_cells (hg_grid g)))) in *. assert (0 <= k) by apply pos_INR.
    assert (Q : INR n * r_area rr <= k * (dim * dim * INR n)) by nra. assert (Q2 : k * (dim * dim * INR n) <= 4 * (dim * dim * INR n)) by (apply Rmult_le_compat_r; [|exact L]; apply Rmult_le_pos; nra). lra.
  Qed.

  (** C32 and C30 for rectangular bins *)
  Theorem box_settles : forall bb rr (sts : list hazard) depth n ops c0, 0 <= M -> n <> 0%nat -> proper bb -> sub_box rr bb -> Forall static_hazard sts -> oblong_bin rr sts ->
    valid sts ops -> Forall grid_op ops -> Forall (centred_op rr) ops -> tidy ops false -> cde_new bb sts depth n = Ok c0 ->
    21 * r_area bb <= INR n * r_area rr -> settles (c0, []) ops.
  Proof.
    intros bb rr sts depth n ops c0 HM Nn Pb Sb St Bb V Go Ce Td E0 Ar.
    assert (Big : forall g, cd_hpg c0 = Some g -> (4 < length (g_cells (hg_grid g)))%nat).
    { intros g Eg. apply (box_fine bb rr sts n g Pb Sb St Bb Ar). destruct V as (Sok & _).
      destruct (cde_new_ok BSok depth bb sts n (proj1 Sok) (proj2 Sok)) as (qt & E' & _). rewrite E' in E0. apply rbind_ok in E0 as (og & Eo & E0). injection E0 as <-.
      cbn [cd_hpg] in Eg. subst og. destruct n as [|n]; [congruence|]. apply rbind_ok in Eo as (g0 & Eo & Q). injection Q as <-. exact Eo. }
    apply (reaches_settles BSok M bb sts depth n ops c0 (fun k => in_rect rr (ccen k))); auto.
    - eapply Forall_impl; [|exact St]. intros h (So & _). exact So.
    - intros h k Ho Hk. rewrite Forall_forall in Ce. apply (Ce _ Ho k Hk).
    - intros g dim Eg F. destruct (box_clipped bb rr sts dim g Pb Sb St Bb F (Big g Eg)) as (x0 & y0 & nx & ny & Cl).
      apply (clipped_reaches BSok M _ _ _ _ _ _ _ Cl).
  Qed.
  Theorem box_exact : forall bb rr (sts : list hazard) depth n ops c0 c sn g, 0 <= M -> n <> 0%nat -> proper bb -> sub_box rr bb -> Forall static_hazard sts -> oblong_bin rr sts ->
    valid sts ops -> Forall grid_op ops -> Forall (centred_op rr) ops -> tidy ops false -> cde_new bb sts depth n = Ok c0 ->
    21 * r_area bb <= INR n * r_area rr ->
    engine bb sts depth n ops = Ok (c, sn) -> cde_hpg c = Ok (Some g) -> every_cell (exact_cell (dynamic_facts ops)) (hg_grid g).
  Proof.
    intros bb rr sts depth n ops c0 c sn g M0 Nn Pb Sb St Bb V Go Ce Ti E0 Ar E Eg.
    assert (So : sound_statics sts) by (eapply Forall_impl; [|exact St]; intros h (So & _); exact So).
    apply (grid_exact BSok M bb sts depth n ops c0 c sn g Nn Pb So V Go E0); [|exact E|exact Eg].
    eapply box_settles; eassumption.
  Qed.
End BoxBin.
