(** Grids without missing cells: registering a pole reaches every cell it should. *)
From Coq Require Import List Bool Arith Lia Permutation Sorted.
From Verif Require Import Base Num GeoModel HazardModel QTModel TransfModel HpgModel CdeModel BaseProofs CdeSpec CdeOpsProofs CdeHistProofs GeoSpec ParityProofs
  GeoPrimProofs PlaceSpec HpgSpec HpgGridProofs HpgFillProofs HpgCellProofs HpgRegProofs HpgHistProofs HpgGenProofs HpgThmProofs.
From Coq Require Import Reals Lra.
From Verif Require Import GeoModel HazardModel QTModel TransfModel HpgModel CdeModel CdeSpec GeoSpec PlaceSpec HpgSpec.
Import ListNotations.
Local Open Scope R_scope.

(** *** regular coordinates *)
Lemma Rabs_le_inv : forall x b, Rabs x <= b -> - b <= x <= b.
Proof. intros x b H. pose proof (Rle_abs x). pose proof (Rle_abs (- x)). rewrite Rabs_Ropp in *. lra. Qed.
Lemma INR_above : forall x, exists n, x < INR n.
Proof.
  intros x. exists (S (Rceil_nat x)). rewrite S_INR. destruct (Rlt_le_dec (INR (Rceil_nat x)) x) as [L|L]; [|lra].
  apply ceil_nat in L. lia.
Qed.
Definition mid (a dim : R) (i : nat) : R := a + dim * (INR i + / 2).
Lemma mid_S : forall a dim i, mid a dim (S i) = mid a dim i + dim.
Proof. intros. unfold mid. rewrite S_INR. lra. Qed.
Lemma mid_le : forall a dim i j, 0 < dim -> (i <= j)%nat -> mid a dim i <= mid a dim j.
Proof. intros a dim i j H L. apply le_INR in L. unfold mid. nra. Qed.
Lemma mid_lt : forall a dim i j, 0 < dim -> (i < j)%nat -> mid a dim i < mid a dim j.
Proof. intros a dim i j H L. apply lt_INR in L. unfold mid. nra. Qed.
Definition near (a dim x : R) (i : nat) : Prop := Rabs (x - mid a dim i) <= dim / 2.
Lemma near_ex : forall a dim n x, 0 < dim -> (0 < n)%nat -> a <= x <= a + INR n * dim -> exists i, (i < n)%nat /\ near a dim x i.
Proof.
  intros a dim n x Hd. induction n as [|n IH]; intros Hn Hx; [lia|]. rewrite S_INR in Hx.
  destruct (Rle_lt_dec (a + INR n * dim) x) as [L|L].
  - exists n. split; [lia|]. unfold near, mid. apply Rabs_le. nra.
  - destruct n as [|n]; [cbn in L; exfalso; lra|]. destruct IH as (i & Hi & Ni); [lia|lra|]. exists i. split; [lia|exact Ni].
Qed.
Lemma near_step : forall a dim x y i j, 0 < dim -> near a dim x i -> near a dim y j -> Rabs (x - y) < dim -> (i <= S j)%nat.
Proof.
  intros a dim x y i j Hd Hi Hj H. unfold near in *. destruct (le_lt_dec i (S j)) as [L|L]; [exact L|]. exfalso.
  apply Rabs_le_inv in Hi. apply Rabs_le_inv in Hj. apply Rabs_def2 in H.
  assert (L2 : (S (S j) <= i)%nat) by lia. apply (mid_le a dim) in L2; [|exact Hd]. rewrite !mid_S in L2. lra.
Qed.
Lemma near_self : forall a dim i, 0 < dim -> near a dim (mid a dim i) i.
Proof. intros. unfold near. rewrite Rminus_diag_eq by reflexivity. rewrite Rabs_R0. lra. Qed.
Lemma mid_between : forall a dim lo hi i x b, 0 < dim -> (lo <= i <= hi)%nat -> Rabs (mid a dim lo - x) <= b -> Rabs (mid a dim hi - x) <= b ->
  Rabs (mid a dim i - x) <= b.
Proof.
  intros a dim lo hi i x b Hd [L1 L2] A B. apply (mid_le a dim) in L1; [|exact Hd]. apply (mid_le a dim) in L2; [|exact Hd].
  apply Rabs_le_inv in A. apply Rabs_le_inv in B. apply Rabs_le. lra.
Qed.
Lemma ssorted_ext : forall l l', StronglySorted Rlt l -> StronglySorted Rlt l' -> (forall x, In x l <-> In x l') -> l = l'.
Proof.
  intros l. induction l as [|x l IH]; intros l' H H' E.
  - destruct l' as [|y l']; [reflexivity|]. exfalso. apply (E y). left. reflexivity.
  - destruct l' as [|y l']; [exfalso; apply (E x); left; reflexivity|].
    inversion H as [|? ? Hl Hx]; subst. inversion H' as [|? ? Hl' Hy]; subst. rewrite Forall_forall in Hx, Hy.
    assert (x = y).
    { destruct (proj1 (E x) (or_introl eq_refl)) as [K|K]; [auto|]. destruct (proj2 (E y) (or_introl eq_refl)) as [K'|K']; [auto|].
      specialize (Hy x K). specialize (Hx y K'). lra. }
    subst y. f_equal. apply IH; auto. intros z. split; intros Hz.
    + destruct (proj1 (E z) (or_intror Hz)) as [<-|K]; [|exact K]. specialize (Hx x Hz). lra.
    + destruct (proj2 (E z) (or_intror Hz)) as [<-|K]; [|exact K]. specialize (Hy x Hz). lra.
Qed.
Lemma mids_sorted : forall a dim n s, 0 < dim -> StronglySorted Rlt (map (mid a dim) (seq s n)).
Proof.
  intros a dim n. induction n as [|n IH]; intros s H; cbn; constructor; [apply IH; exact H|].
  apply Forall_forall. intros y Hy. apply in_map_iff in Hy as (j & <- & Hj). apply in_seq in Hj. apply mid_lt; [exact H|lia].
Qed.
Lemma mids_nth : forall a dim n i, (i < n)%nat -> nth_error (map (mid a dim) (seq 0 n)) i = Some (mid a dim i).
Proof.
  intros a dim n i H. rewrite nth_error_map. rewrite (nth_error_nth' _ 0%nat) by (rewrite seq_length; exact H). rewrite seq_nth by exact H. reflexivity.
Qed.

(** the middle of an index range lies close to the middle of the interval *)
Lemma mid_offset : forall {BS : BSearch} (BSok : bsearch_ok BS) M a dim n x w st en, 0 < dim -> (0 < n)%nat -> a <= x <= a + INR n * dim -> 0 <= w ->
  @range_in R (RNumT Reqb M) BS (map (mid a dim) (seq 0 n)) (x - w) (x + w) = Ok (st, en) ->
  (st <= en < n)%nat /\ Rabs (mid a dim (st + Nat.div (en - st) 2) - x) <= (w + 5 / 2 * dim) / 2.
Proof.
  intros BS BSok M a dim n x w st en Hd Hn Hx Hw E.
  assert (So := mids_sorted a dim n 0 Hd). assert (Ne : map (mid a dim) (seq 0 n) <> []) by (destruct n; [lia|discriminate]).
  destruct (range_ok BSok M _ (x - w) (x + w) So Ne) as (st' & en' & E' & L1 & L2 & _ & Hs & He & Xs & Xe); [lra|].
  assert (K : Ok (st', en') = Ok (st, en)) by (rewrite <- E, <- E'; reflexivity). injection K as -> ->.
  rewrite map_length, seq_length in L2, He. split; [lia|].
  assert (N : forall i, (i < n)%nat -> nth_error (map (mid a dim) (seq 0 n)) i = Some (mid a dim i)) by (intros; apply mids_nth; assumption).
  destruct n as [|n]; [lia|]. rewrite S_INR in Hx.
  assert (S1 : mid a dim st <= x + dim / 2).
  { destruct Hs as [ -> |(y & Ey & Ly)]; [unfold mid; cbn; lra|]. rewrite N in Ey by lia. injection Ey as <-. lra. }
  assert (S2 : x - w - dim <= mid a dim st).
  { destruct (Nat.eq_dec st n) as [ -> |Nst]; [unfold mid; lra|]. assert (K := Xs (S st) _ (N (S st) ltac:(lia)) ltac:(lia)). rewrite mid_S in K. lra. }
  assert (E1 : x - dim / 2 <= mid a dim en).
  { destruct He as [He|(y & Ey & Ly)]; [injection He as ->; unfold mid; lra|]. rewrite N in Ey by lia. injection Ey as <-. lra. }
  assert (E2 : mid a dim en <= x + w + dim).
  { destruct en as [|en]; [unfold mid; cbn; lra|]. assert (K := Xe en _ (N en ltac:(lia)) ltac:(lia)). rewrite mid_S. lra. }
  set (h := Nat.div (en - st) 2). assert (H2 : (2 * h <= en - st <= 2 * h + 1)%nat).
  { unfold h. pose proof (Nat.div_mod (en - st) 2 ltac:(lia)). pose proof (Nat.mod_upper_bound (en - st) 2 ltac:(lia)). lia. }
  assert (Q1 : (st + h + (st + h) <= st + en)%nat) by lia. assert (Q2 : (st + en <= st + h + (st + h) + 1)%nat) by lia.
  apply le_INR in Q1, Q2. rewrite !plus_INR in Q1, Q2. change (INR 1) with 1 in Q2.
  assert (R1 : 2 * mid a dim (st + h) <= mid a dim st + mid a dim en).
  { unfold mid. rewrite plus_INR. apply (Rmult_le_compat_l dim) in Q1; lra. }
  assert (R2 : mid a dim st + mid a dim en <= 2 * mid a dim (st + h) + dim).
  { unfold mid. rewrite !plus_INR in *. apply (Rmult_le_compat_l dim) in Q2; lra. }
  apply Rabs_le. lra.
Qed.

Section Full.
  Context {D : Type} {ED : EqD D} {BS : BSearch}.
  Hypothesis BSok : bsearch_ok BS.
  Variable M : R.
  #[local] Instance NMf : Num R := RNumT Reqb M.
  Local Notation cell := (cell R D).
  Local Notation hazard := (hazard R D).
  Local Notation fact := (CdeSpec.fact R D).
  Local Notation grid := (grid R cell).

  (** all rows, columns and cells are there, at equal spacing *)
  Record regular (x0 y0 dim : R) (nx ny : nat) (g : grid) : Prop := {
    rg_dim : 0 < dim; rg_nx : (0 < nx)%nat; rg_ny : (0 < ny)%nat;
    rg_rows : g_rows g = map (mid y0 dim) (seq 0 ny); rg_cols : g_cols g = map (mid x0 dim) (seq 0 nx);
    rg_at : forall r c, (r < ny)%nat -> (c < nx)%nat -> exists ce, cell_at g (r * nx + c) = Some ce /\
              c_cen ce = Pt (mid x0 dim c) (mid y0 dim r) /\ c_rad ce = half_diag dim }.
  (** the values are those of a 1-Lipschitz function *)
  Definition lip (g : grid) : Prop := forall i j c c', cell_at g i = Some c -> cell_at g j = Some c' ->
    fst (c_uni c) <= fst (c_uni c') + edist (c_cen c) (c_cen c').
  Definition vpos (g : grid) : Prop := all_cells (fun c => 0 <= fst (c_uni c)) g.

  Lemma half_diag_sq : forall dim, 0 < dim -> 0 < half_diag dim /\ 2 * (half_diag dim * half_diag dim) = dim * dim.
  Proof.
    intros dim H. unfold half_diag. split; [apply sqrt_lt_R0; nra|]. rewrite sqrt_sqrt by nra. lra.
  Qed.
  Lemma diag_bound : forall dim r p q, 0 < dim -> 0 <= r -> let b := (r + 2 * half_diag dim + 5 / 2 * dim) / 2 in
    Rabs (px p - px q) <= b -> Rabs (py p - py q) <= b -> edist p q - r <= 4 * half_diag dim.
  Proof.
    intros dim r p q Hd Hr b Hx Hy. destruct (half_diag_sq dim Hd) as (H0 & H2). set (h := half_diag dim) in *.
    assert (Dh : dim <= 3 / 2 * h). { destruct (Rle_lt_dec dim (3 / 2 * h)) as [L|L]; [exact L|]. exfalso. nra. }
    enough (edist p q <= 4 * h + r) by lra. apply edist_le; [lra|]. apply Rabs_le_inv in Hx. apply Rabs_le_inv in Hy.
    assert (B0 : 0 <= b) by (unfold b; lra).
    assert (Q1 : (px p - px q) ^ 2 <= b * b) by nra. assert (Q2 : (py p - py q) ^ 2 <= b * b) by nra.
    enough (2 * (b * b) <= (4 * h + r) * (4 * h + r)) by lra. unfold b. nra.
  Qed.

  Lemma reach_mono : forall nr nc (P Q : nat -> Prop) a i, (forall x, P x -> Q x) -> reach nr nc P a i -> reach nr nc Q a i.
  Proof. intros nr nc P Q a i H R. induction R; [constructor|]. eapply reach_step; eauto. Qed.

  Lemma regular_wf : forall x0 y0 dim nx ny g, regular x0 y0 dim nx ny g -> length (g_cells g) = (ny * nx)%nat -> grid_wf g.
  Proof.
    intros x0 y0 dim nx ny g [Hd Hx Hy Er Ec At] L. split; rewrite ?Er, ?Ec.
    - apply mids_sorted; exact Hd.
    - apply mids_sorted; exact Hd.
    - destruct ny; [lia|discriminate].
    - destruct nx; [lia|discriminate].
    - unfold n_rows, n_cols. rewrite Er, Ec, !map_length, !seq_length. exact L.
  Qed.

  Lemma regular_same : forall x0 y0 dim nx ny g g', same_grid g g' -> regular x0 y0 dim nx ny g -> regular x0 y0 dim nx ny g'.
  Proof.
    intros x0 y0 dim nx ny g g' (E1 & E2 & _ & E4) [Hd Hx Hy Er Ec At]. split; auto; try congruence.
    intros r c Hr Hc. destruct (At r c Hr Hc) as (ce & A1 & A2 & A3). specialize (E4 (r * nx + c)%nat). rewrite A1 in E4.
    destruct (cell_at g' (r * nx + c)) as [ce'|]; [|contradiction]. destruct E4 as (F1 & F2 & F3 & _). exists ce'. split; [reflexivity|]. split; congruence.
  Qed.

  Lemma pole_complete : forall x0 y0 dim nx ny (g : grid) (h : hazard) k b, regular x0 y0 dim nx ny g -> length (g_cells g) = (ny * nx)%nat ->
    length (bf_state b) = (ny * nx)%nat -> lip g -> vpos g -> ent_position (h_ent h) = Interior -> 0 <= crad k ->
    x0 <= px (ccen k) <= x0 + INR nx * dim -> y0 <= py (ccen k) <= y0 + INR ny * dim ->
    complete_pole M (half_diag dim) h (g, b) k.
  Proof.
    intros x0 y0 dim nx ny g h k b Rg Lg Lb Li Po P Hk Px Py [g' b'] E i c' Ec'. cbn [fst] in *.
    pose proof (regular_wf _ _ _ _ _ _ Rg Lg) as W. pose proof Rg as [Hd Hnx Hny Er Ec At].
    destruct (half_diag_sq dim Hd) as (Hh & H2).
    assert (Nr : n_rows g = ny) by (unfold n_rows; rewrite Er, map_length, seq_length; reflexivity).
    assert (Nc : n_cols g = nx) by (unfold n_cols; rewrite Ec, map_length, seq_length; reflexivity).
    destruct (register_pole_grid BSok M (half_diag dim) h k g b W) as (g1 & b1 & order & rows & cols & E1 & _ & _ & _ & _ & Rr & Rc & (b2 & b3 & F1 & F2) & O1 & O2); auto.
    { rewrite Nr, Nc. exact Lb. } { lra. }
    assert (K : Ok (g1, b1) = Ok (g', b')) by (rewrite <- E, <- E1; reflexivity). injection K as -> ->.
    assert (V : forall a ca, cell_at g a = Some ca -> c_rad ca = half_diag dim -> gap k (c_cen ca) <= fst (c_uni ca) + 4 * half_diag dim -> verdict k g a = Interior).
    { intros a ca Ea Era La. unfold verdict. rewrite Ea, Era. destruct (Rlt_dec (fst (c_uni ca) + 4 * half_diag dim) (gap k (c_cen ca))); [lra|reflexivity]. }
    assert (Bk : exists c, cell_at g i = Some c /\ c_cen c' = c_cen c).
    { destruct (in_dec Nat.eq_dec i order) as [Hi|Hi]; [rewrite (O1 i Hi) in Ec'|rewrite (O2 i Hi) in Ec'; eauto].
      destruct (cell_at g i) as [c|]; [|discriminate]. injection Ec' as <-. exists c. split; [reflexivity|apply lower_frame]. }
    destruct Bk as (c & Eci & Cen).
    destruct (in_dec Nat.eq_dec i order) as [Hi|Hi].
    { rewrite (O1 i Hi), Eci in Ec'. injection Ec' as <-. rewrite lower_val, Cen. apply Rmin_r. }
    rewrite (O2 i Hi), Eci in Ec'. injection Ec' as <-. clear Cen.
    destruct (Rle_lt_dec (fst (c_uni c)) (gap k (c_cen c))) as [L|L]; [exact L|]. exfalso. apply Hi.
    (* the cell's coordinates *)
    assert (Li' : (i < ny * nx)%nat).
    { rewrite <- Lg. apply nth_error_Some. unfold cell_at in Eci. intros N. rewrite N in Eci. discriminate. }
    assert (Di := Nat.div_mod i nx ltac:(lia)). set (ri := Nat.div i nx) in *. set (ci := Nat.modulo i nx) in *.
    assert (Hci : (ci < nx)%nat) by (apply Nat.mod_upper_bound; lia). assert (Hri : (ri < ny)%nat) by (apply Nat.div_lt_upper_bound; lia).
    assert (Ei : i = (ri * nx + ci)%nat) by lia.
    destruct (At ri ci Hri Hci) as (c1 & A1 & A2 & A3). rewrite <- Ei, Eci in A1. injection A1 as <-.
    (* the middle cell *)
    destruct rows as [r0 r1], cols as [c0 c1]. rewrite Er in Rr. rewrite Ec in Rc.
    assert (Wp : 0 <= crad k + 2 * half_diag dim) by lra.
    destruct (mid_offset BSok M y0 dim ny (py (ccen k)) (crad k + 2 * half_diag dim) r0 r1 Hd Hny Py Wp) as (Lr & Or).
    { replace (py (ccen k) - (crad k + 2 * half_diag dim)) with (py (ccen k) - crad k - 2 * half_diag dim) by lra.
      replace (py (ccen k) + (crad k + 2 * half_diag dim)) with (py (ccen k) + crad k + 2 * half_diag dim) by lra. exact Rr. }
    destruct (mid_offset BSok M x0 dim nx (px (ccen k)) (crad k + 2 * half_diag dim) c0 c1 Hd Hnx Px Wp) as (Lc & Oc).
    { replace (px (ccen k) - (crad k + 2 * half_diag dim)) with (px (ccen k) - crad k - 2 * half_diag dim) by lra.
      replace (px (ccen k) + (crad k + 2 * half_diag dim)) with (px (ccen k) + crad k + 2 * half_diag dim) by lra. exact Rc. }
    pose proof (fill_first g (verdict k g) _ _ _ _ _ _ F1 F2) as Fst. cbn [fst snd] in Fst. rewrite Nc in Fst.
    set (mr := (r0 + Nat.div (r1 - r0) 2)%nat) in *. set (mc := (c0 + Nat.div (c1 - c0) 2)%nat) in *.
    assert (Hmr : (mr < ny)%nat).
    { unfold mr. pose proof (Nat.div_le_upper_bound (r1 - r0) 2 (r1 - r0) ltac:(lia) ltac:(lia)). lia. }
    assert (Hmc : (mc < nx)%nat).
    { unfold mc. pose proof (Nat.div_le_upper_bound (c1 - c0) 2 (c1 - c0) ltac:(lia) ltac:(lia)). lia. }
    set (bnd := (crad k + 2 * half_diag dim + 5 / 2 * dim) / 2) in *.
    (* cells close to the centre in both directions are Interior *)
    assert (Close : forall r cc, (r < ny)%nat -> (cc < nx)%nat -> Rabs (mid y0 dim r - py (ccen k)) <= bnd -> Rabs (mid x0 dim cc - px (ccen k)) <= bnd ->
               verdict k g (r * nx + cc)%nat = Interior).
    { intros r cc Hr Hcc By Bx. destruct (At r cc Hr Hcc) as (ca & Q1 & Q2 & Q3). apply (V _ ca Q1 Q3). rewrite Q2.
      pose proof (Po _ _ Q1) as Pc. cbn beta in Pc. unfold gap.
      assert (Dg := diag_bound dim (crad k) (Pt (mid x0 dim cc) (mid y0 dim r)) (ccen k) Hd Hk Bx By). apply Rmax_lub; lra. }
    destruct (fill_correct g (verdict k g) (S (length (g_cells g))) (r0, r1) (c0, c1)) as (b4 & o4 & b5 & G1 & G2 & _ & _ & _ & _ & Dj);
      [rewrite Lg, Nr, Nc; lia|cbn [fst snd]; rewrite Nr; lia|cbn [fst snd]; rewrite Nc; lia|].
    rewrite F1 in G1. injection G1 as <-. rewrite F2 in G2. injection G2 as <- <-. rewrite Nr, Nc in Dj.
    assert (Vm : verdict k g (mr * nx + mc)%nat = Interior) by (apply Close; assumption).
    assert (Hm : In (mr * nx + mc)%nat order) by (destruct order as [|o order]; [discriminate|injection Fst as <-; left; reflexivity]).
    destruct Dj as [(_ & X & _)|(pre & s & post & _ & Eo & X & _ & _ & Re)]; [specialize (X _ Hm); congruence|].
    destruct pre as [|o pre].
    2: { rewrite Eo in Fst. cbn in Fst. injection Fst as ->. specialize (X _ (or_introl eq_refl)). congruence. }
    rewrite Eo in Fst. cbn in Fst. injection Fst as ->. rewrite Eo. cbn [app]. apply Re. split; [|intros []].
    assert (Fr : reach ny nx (fun x => verdict k g x = Interior) (mr * nx + mc) i); [|exact Fr].
    (* the walk *)
    set (p := ccen k) in *. set (yx := mid x0 dim ci). set (yy := mid y0 dim ri).
    assert (Hcc : c_cen c = Pt yx yy) by exact A2.
    destruct (INR_above ((Rabs (yx - px p) + Rabs (yy - py p)) / dim)) as (N & HN).
    assert (HN' : Rabs (yx - px p) + Rabs (yy - py p) < INR N * dim).
    { apply (Rmult_lt_compat_r dim) in HN; [|exact Hd]. unfold Rdiv in HN. rewrite Rmult_assoc, Rinv_l in HN by lra. lra. }
    assert (N0 : 0 < INR N). { pose proof (Rabs_pos (yx - px p)). pose proof (Rabs_pos (yy - py p)). nra. }
    set (zx := fun t : nat => px p + INR t / INR N * (yx - px p)). set (zy := fun t : nat => py p + INR t / INR N * (yy - py p)).
    assert (T01 : forall t, (t <= N)%nat -> 0 <= INR t / INR N <= 1).
    { intros t Ht. apply le_INR in Ht. pose proof (pos_INR t). split; [apply Rmult_le_pos; [assumption|left; apply Rinv_0_lt_compat; exact N0]|].
      apply Rmult_le_reg_r with (INR N); [exact N0|]. unfold Rdiv. rewrite Rmult_assoc, Rinv_l by lra. lra. }
    assert (Yx : x0 <= yx <= x0 + INR nx * dim).
    { assert (Q := Hci). apply Nat.le_succ_l, le_INR in Q. rewrite S_INR in Q. pose proof (pos_INR ci). unfold yx, mid. nra. }
    assert (Yy : y0 <= yy <= y0 + INR ny * dim).
    { assert (Q := Hri). apply Nat.le_succ_l, le_INR in Q. rewrite S_INR in Q. pose proof (pos_INR ri). unfold yy, mid. nra. }
    (* cells near the segment from the centre to the cell are Interior *)
    assert (Seg : forall t r cc, (t <= N)%nat -> (r < ny)%nat -> (cc < nx)%nat -> near y0 dim (zy t) r -> near x0 dim (zx t) cc ->
               verdict k g (r * nx + cc)%nat = Interior).
    { intros t r cc Ht Hr Hcx Ny Nx. destruct (At r cc Hr Hcx) as (ca & Q1 & Q2 & Q3). apply (V _ ca Q1 Q3).
      set (z := Pt (zx t) (zy t)). set (a := c_cen ca) in *. specialize (T01 t Ht). set (u := INR t / INR N) in *.
      assert (Za : edist z a <= half_diag dim).
      { apply edist_le; [lra|]. rewrite Q2. unfold z. cbn [px py]. unfold near in *. apply Rabs_le_inv in Nx. apply Rabs_le_inv in Ny.
        assert (R1 : (zx t - mid x0 dim cc) ^ 2 <= dim / 2 * (dim / 2)) by nra. assert (R2 : (zy t - mid y0 dim r) ^ 2 <= dim / 2 * (dim / 2)) by nra. lra. }
      set (dy := edist (c_cen c) p). assert (Dy0 : 0 <= dy) by apply edist_nonneg.
      assert (Dy2 : dy * dy = (yx - px p) ^ 2 + (yy - py p) ^ 2) by (unfold dy; rewrite edist_sq, Hcc; reflexivity).
      assert (Zp : edist z p <= u * dy).
      { apply edist_le; [nra|]. unfold z. cbn [px py]. unfold zx, zy. fold u. replace (u * dy * (u * dy)) with (u * u * (dy * dy)) by ring. rewrite Dy2. lra. }
      assert (Zy : edist z (c_cen c) <= (1 - u) * dy).
      { apply edist_le; [nra|]. rewrite Hcc. unfold z. cbn [px py]. unfold zx, zy. fold u.
        replace ((1 - u) * dy * ((1 - u) * dy)) with ((1 - u) * (1 - u) * (dy * dy)) by ring. rewrite Dy2. lra. }
      pose proof (Li i (r * nx + cc)%nat c ca Eci Q1) as Lp. pose proof (Po _ _ Q1) as Pa. cbn beta in Pa. fold a in Lp.
      pose proof (edist_tri (c_cen c) z a) as T1. rewrite (edist_sym (c_cen c) z) in T1.
      pose proof (edist_tri a z p) as T2. rewrite (edist_sym a z) in T2.
      unfold gap in L |- *. fold p in L |- *. fold dy in L. apply Rmax_lub; [lra|].
      assert (L1 : 0 < fst (c_uni c)) by (pose proof (Rmax_l 0 (dy - crad k)); lra). pose proof (Rmax_r 0 (dy - crad k)). lra. }
    assert (Walk : forall t, (t <= N)%nat -> forall r cc, (r < ny)%nat -> (cc < nx)%nat -> near y0 dim (zy t) r -> near x0 dim (zx t) cc ->
               reach ny nx (fun x => verdict k g x = Interior) (mr * nx + mc) (r * nx + cc)).
    { induction t as [|t IH]; intros Ht r cc Hr Hcx Ny Nx.
      - assert (Z1 : zx 0%nat = px p) by (unfold zx; cbn; lra). assert (Z2 : zy 0%nat = py p) by (unfold zy; cbn; lra). rewrite Z1 in Nx. rewrite Z2 in Ny.
        assert (Bx : Rabs (mid x0 dim cc - px p) <= bnd) by (unfold near in Nx; rewrite Rabs_minus_sym; unfold bnd; lra).
        assert (By : Rabs (mid y0 dim r - py p) <= bnd) by (unfold near in Ny; rewrite Rabs_minus_sym; unfold bnd; lra).
        apply (reach_mono _ _ (in_box nx (Nat.min mr r, Nat.max mr r) (Nat.min mc cc, Nat.max mc cc))).
        + intros x [B1 B2]. cbn [fst snd] in B1, B2. assert (Dx := Nat.div_mod x nx ltac:(lia)).
          replace x with (Nat.div x nx * nx + Nat.modulo x nx)%nat by lia. apply Close; try lia.
          * apply (mid_between y0 dim (Nat.min mr r) (Nat.max mr r)); auto; [destruct (Nat.min_spec mr r) as [[_ ->]|[_ ->]]; assumption|destruct (Nat.max_spec mr r) as [[_ ->]|[_ ->]]; assumption].
          * apply (mid_between x0 dim (Nat.min mc cc) (Nat.max mc cc)); auto; [destruct (Nat.min_spec mc cc) as [[_ ->]|[_ ->]]; assumption|destruct (Nat.max_spec mc cc) as [[_ ->]|[_ ->]]; assumption].
        + rewrite <- Nr, <- Nc. apply box_connected; cbn [fst snd]; rewrite ?Nr, ?Nc; lia.
      - assert (Bt : forall a b q v n, (t <= N)%nat -> v = q + INR t / INR N * (b - q) -> a <= q <= a + INR n * dim -> a <= b <= a + INR n * dim -> a <= v <= a + INR n * dim).
        { intros a b6 q v n Lt -> B1 B2. specialize (T01 t Lt). set (u := INR t / INR N) in *. split; nra. }
        destruct (near_ex y0 dim ny (zy t) Hd Hny) as (r' & Hr' & Nr').
        { apply (Bt y0 yy (py p)); [lia|reflexivity|exact Py|exact Yy]. }
        destruct (near_ex x0 dim nx (zx t) Hd Hnx) as (c' & Hc' & Nc').
        { apply (Bt x0 yx (px p)); [lia|reflexivity|exact Px|exact Yx]. }
        assert (Sx : Rabs (zx (S t) - zx t) < dim).
        { unfold zx. rewrite S_INR. replace (px p + (INR t + 1) / INR N * (yx - px p) - (px p + INR t / INR N * (yx - px p))) with ((yx - px p) * / INR N) by (unfold Rdiv; ring).
          rewrite Rabs_mult, (Rabs_right (/ INR N)) by (apply Rle_ge; left; apply Rinv_0_lt_compat; exact N0).
          apply Rmult_lt_reg_r with (INR N); [exact N0|]. rewrite Rmult_assoc, Rinv_l by lra. pose proof (Rabs_pos (yy - py p)). lra. }
        assert (Sy : Rabs (zy (S t) - zy t) < dim).
        { unfold zy. rewrite S_INR. replace (py p + (INR t + 1) / INR N * (yy - py p) - (py p + INR t / INR N * (yy - py p))) with ((yy - py p) * / INR N) by (unfold Rdiv; ring).
          rewrite Rabs_mult, (Rabs_right (/ INR N)) by (apply Rle_ge; left; apply Rinv_0_lt_compat; exact N0).
          apply Rmult_lt_reg_r with (INR N); [exact N0|]. rewrite Rmult_assoc, Rinv_l by lra. pose proof (Rabs_pos (yx - px p)). lra. }
        apply reach_step with (r' * nx + c')%nat.
        + apply IH; auto. lia.
        + apply (Seg t); auto. lia.
        + nia.
        + assert (I1 : Nat.div (r * nx + cc) nx = r /\ Nat.modulo (r * nx + cc) nx = cc) by (rewrite <- Nc; apply idx_div_mod; rewrite Nc; exact Hcx).
          assert (I2 : Nat.div (r' * nx + c') nx = r' /\ Nat.modulo (r' * nx + c') nx = c') by (rewrite <- Nc; apply idx_div_mod; rewrite Nc; exact Hc').
          unfold touching. destruct I1 as [-> ->]. destruct I2 as [-> ->].
          rewrite Rabs_minus_sym in Sx, Sy.
          split; [apply (near_step y0 dim (zy t) (zy (S t)) r' r Hd Nr' Ny Sy)|]. rewrite Rabs_minus_sym in Sy.
          split; [apply (near_step y0 dim (zy (S t)) (zy t) r r' Hd Ny Nr' Sy)|].
          split; [apply (near_step x0 dim (zx t) (zx (S t)) c' cc Hd Nc' Nx Sx)|]. rewrite Rabs_minus_sym in Sx.
          apply (near_step x0 dim (zx (S t)) (zx t) cc c' Hd Nx Nc' Sx). }
    rewrite Ei. apply (Walk N); auto.
    - assert (zy N = yy) as ->; [|apply near_self; exact Hd]. unfold zy, Rdiv. rewrite Rinv_r by lra. lra.
    - assert (zx N = yx) as ->; [|apply near_self; exact Hd]. unfold zx, Rdiv. rewrite Rinv_r by lra. lra.
  Qed.
End Full.
