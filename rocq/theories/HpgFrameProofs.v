(** Grids of rectangular bins: only corner cells can be missing, and registering a pole
    still reaches every cell it should. *)
From Coq Require Import List Bool Arith Lia Permutation Sorted.
From Verif Require Import Base Num GeoModel HazardModel QTModel TransfModel HpgModel CdeModel BaseProofs CdeSpec CdeOpsProofs CdeHistProofs GeoSpec ParityProofs
  GeoPrimProofs PlaceSpec HpgSpec HpgGridProofs HpgFillProofs HpgCellProofs HpgRegProofs HpgHistProofs HpgGenProofs HpgThmProofs HpgFullProofs HpgTidyProofs.
From Coq Require Import Reals Lra.
From Verif Require Import GeoModel HazardModel QTModel TransfModel HpgModel CdeModel CdeSpec GeoSpec PlaceSpec HpgSpec.
Import ListNotations.
Local Open Scope R_scope.

(** *** walks around missing cells *)
Lemma shortcut : forall nr nc (P Q : nat -> Prop) a i, (forall x, {Q x} + {~ Q x}) ->
  (forall m x y, Q m -> (x < nr * nc)%nat -> (y < nr * nc)%nat -> touching nc x m -> touching nc m y -> touching nc x y) ->
  (forall m m', Q m -> Q m' -> touching nc m m' -> m = m') ->
  (a < nr * nc)%nat -> ~ Q a -> ~ Q i -> reach nr nc (fun x => P x \/ Q x) a i -> reach nr nc P a i.
Proof.
  intros nr nc P Q a i Qd H1 H2 La Na Ni R.
  assert (K : (i < nr * nc)%nat /\ (~ Q i -> reach nr nc P a i) /\ (Q i -> exists x, reach nr nc P a x /\ P x /\ (x < nr * nc)%nat /\ touching nc x i)).
  { clear Ni. induction R as [|x y R IH O Ly T].
    - split; [exact La|]. split; [intros _; constructor|contradiction].
    - destruct IH as (Lx & I1 & I2). split; [exact Ly|]. destruct (Qd x) as [Qx|Qx].
      + destruct (I2 Qx) as (w & Rw & Pw & Lw & Tw). split.
        * intros _. apply reach_step with w; auto. eapply H1; eassumption.
        * intros Qy. assert (x = y) as <- by (apply H2; assumption). exists w. auto.
      + assert (Px : P x) by (destruct O as [O|O]; [exact O|contradiction]). split.
        * intros _. apply reach_step with x; auto.
        * intros _. exists x. auto. }
  destruct K as (_ & K & _). auto.
Qed.

(** the middle of a seed range is the first index only if that is not before the pole *)
Lemma mid_extreme : forall {BS : BSearch} (BSok : bsearch_ok BS) M a dim n x w st en, 0 < dim -> (2 < n)%nat -> x <= a + INR n * dim -> dim <= w ->
  @range_in R (RNumT Reqb M) BS (map (mid a dim) (seq 0 n)) (x - w) (x + w) = Ok (st, en) ->
  let m := (st + Nat.div (en - st) 2)%nat in (m = 0%nat -> x <= mid a dim 0) /\ m <> Nat.pred n.
Proof.
  intros BS BSok M a dim n x w st en Hd Hn Hx Hw E m.
  assert (So := mids_sorted a dim n 0 Hd). assert (Ne : map (mid a dim) (seq 0 n) <> []) by (destruct n; [lia|discriminate]).
  destruct (range_ok BSok M _ (x - w) (x + w) So Ne) as (st' & en' & E' & L1 & L2 & _ & Hs & He & Xs & Xe); [lra|].
  assert (K : Ok (st', en') = Ok (st, en)) by (rewrite <- E, <- E'; reflexivity). injection K as -> ->.
  rewrite map_length, seq_length in L2, He.
  assert (N : forall i, (i < n)%nat -> nth_error (map (mid a dim) (seq 0 n)) i = Some (mid a dim i)) by (intros; apply mids_nth; assumption).
  assert (H2 : (2 * Nat.div (en - st) 2 <= en - st <= 2 * Nat.div (en - st) 2 + 1)%nat).
  { pose proof (Nat.div_mod (en - st) 2 ltac:(lia)). pose proof (Nat.mod_upper_bound (en - st) 2 ltac:(lia)). lia. }
  set (h := Nat.div (en - st) 2) in *. split.
  - intros Z. assert (st = 0%nat) by lia. assert (Le : (en <= 1)%nat) by lia.
    destruct He as [He|(y & Ey & Ly)]; [exfalso; lia|]. rewrite N in Ey by lia. injection Ey as <-.
    apply (mid_le a dim) in Le; [|exact Hd]. rewrite mid_S in Le. lra.
  - intros Z. assert (st = Nat.pred n) by lia.
    destruct Hs as [ Hs |(y & Ey & Ly)]; [lia|]. rewrite N in Ey by lia. injection Ey as <-. subst st.
    destruct n as [|n']; [lia|]. cbn [Nat.pred] in Ly. rewrite S_INR in Hx. unfold mid in Ly. lra.
Qed.

Section Frame.
  Context {D : Type} {ED : EqD D} {BS : BSearch}.
  Hypothesis BSok : bsearch_ok BS.
  Variable M : R.
  #[local] Instance NMv : Num R := RNumT Reqb M.
  Local Notation cell := (cell R D).
  Local Notation hazard := (hazard R D).
  Local Notation fact := (CdeSpec.fact R D).
  Local Notation grid := (grid R cell).

  (** equally spaced rows and columns around the rectangle [rr]; the rows and columns
      through [rr] are complete, none is empty *)
  Record clipped (rr : rect R) (x0 y0 dim : R) (nx ny : nat) (g : grid) : Prop := {
    cl_dim : 0 < dim; cl_nx : (0 < nx)%nat; cl_ny : (0 < ny)%nat; cl_big : (2 < nx \/ 2 < ny)%nat;
    cl_rows : g_rows g = map (mid y0 dim) (seq 0 ny); cl_cols : g_cols g = map (mid x0 dim) (seq 0 nx);
    cl_inx : x0 <= x_min rr /\ x_max rr <= x0 + INR nx * dim; cl_iny : y0 <= y_min rr /\ y_max rr <= y0 + INR ny * dim;
    cl_edgex : x_min rr - dim < mid x0 dim 0 /\ mid x0 dim (Nat.pred nx) < x_max rr + dim;
    cl_edgey : y_min rr - dim < mid y0 dim 0 /\ mid y0 dim (Nat.pred ny) < y_max rr + dim;
    cl_cell : forall r c ce, (r < ny)%nat -> (c < nx)%nat -> cell_at g (r * nx + c) = Some ce ->
                c_cen ce = Pt (mid x0 dim c) (mid y0 dim r) /\ c_rad ce = half_diag dim;
    cl_x : forall r c, (r < ny)%nat -> (c < nx)%nat -> x_min rr <= mid x0 dim c <= x_max rr -> cell_at g (r * nx + c) <> None;
    cl_y : forall r c, (r < ny)%nat -> (c < nx)%nat -> y_min rr <= mid y0 dim r <= y_max rr -> cell_at g (r * nx + c) <> None;
    cl_row : forall r, (r < ny)%nat -> exists c, (c < nx)%nat /\ cell_at g (r * nx + c) <> None;
    cl_col : forall c, (c < nx)%nat -> exists r, (r < ny)%nat /\ cell_at g (r * nx + c) <> None }.

  Lemma same_some : forall (g g' : grid) i, same_grid g g' -> cell_at g i <> None -> cell_at g' i <> None.
  Proof. intros g g' i (_ & _ & _ & S) H. specialize (S i). destruct (cell_at g i); [|congruence]. destruct (cell_at g' i); [congruence|contradiction]. Qed.
  Lemma clipped_same : forall rr x0 y0 dim nx ny g g', same_grid g g' -> clipped rr x0 y0 dim nx ny g -> clipped rr x0 y0 dim nx ny g'.
  Proof.
    intros rr x0 y0 dim nx ny g g' S [H1 H2 H3 H4 H5 H6 H7 H8 H9 H10 H11 H12 H13 H14 H15]. pose proof S as (E1 & E2 & _ & E4). split; auto; try congruence.
    - intros r c ce Hr Hc Ec. specialize (E4 (r * nx + c)%nat). rewrite Ec in E4. destruct (cell_at g (r * nx + c)) as [ca|] eqn:Ea; [|contradiction].
      destruct (H11 r c ca Hr Hc Ea) as (Q1 & Q2). destruct E4 as (F1 & F2 & F3 & _). split; congruence.
    - intros r c Hr Hc B. eapply same_some; eauto.
    - intros r c Hr Hc B. eapply same_some; eauto.
    - intros r Hr. destruct (H14 r Hr) as (c & Hc & Q). exists c. split; [exact Hc|]. eapply same_some; eauto.
    - intros c Hc. destruct (H15 c Hc) as (r & Hr & Q). exists r. split; [exact Hr|]. eapply same_some; eauto.
  Qed.

  Section Missing.
    Variable rr : rect R.
    Variables x0 y0 dim : R.
    Variables nx ny : nat.
    Variable g : grid.
    Hypothesis Cl : clipped rr x0 y0 dim nx ny g.
    Definition missing (m : nat) : Prop := (m < ny * nx)%nat /\ cell_at g m = None.
    Lemma missing_dec : forall m, {missing m} + {~ missing m}.
    Proof.
      intros m. destruct (lt_dec m (ny * nx)) as [L|L]; [|right; intros [? _]; contradiction].
      destruct (cell_at g m) eqn:E; [right; intros [_ ?]; congruence|left; split; assumption].
    Qed.
    Lemma inner_x : forall r c, (r < ny)%nat -> (0 < c < Nat.pred nx)%nat -> cell_at g (r * nx + c) <> None.
    Proof.
      intros r c Hr [C1 C2]. pose proof (cl_dim _ _ _ _ _ _ _ Cl) as Hd. destruct (cl_edgex _ _ _ _ _ _ _ Cl) as (A & B).
      apply (cl_x _ _ _ _ _ _ _ Cl); [exact Hr|lia|]. apply (mid_le x0 dim 1 c) in C1; [|exact Hd]. rewrite mid_S in C1.
      apply (mid_le x0 dim (S c)) in C2; [|exact Hd]. rewrite mid_S in C2. lra.
    Qed.
    Lemma inner_y : forall r c, (c < nx)%nat -> (0 < r < Nat.pred ny)%nat -> cell_at g (r * nx + c) <> None.
    Proof.
      intros r c Hr [C1 C2]. pose proof (cl_dim _ _ _ _ _ _ _ Cl) as Hd. destruct (cl_edgey _ _ _ _ _ _ _ Cl) as (A & B).
      apply (cl_y _ _ _ _ _ _ _ Cl); [lia|exact Hr|]. apply (mid_le y0 dim 1 r) in C1; [|exact Hd]. rewrite mid_S in C1.
      apply (mid_le y0 dim (S r)) in C2; [|exact Hd]. rewrite mid_S in C2. lra.
    Qed.
    Lemma missing_corner : forall m, missing m -> exists r c, m = (r * nx + c)%nat /\ (r < ny)%nat /\ (c < nx)%nat /\ Nat.div m nx = r /\ Nat.modulo m nx = c /\
      (r = 0 \/ r = Nat.pred ny)%nat /\ (c = 0 \/ c = Nat.pred nx)%nat.
    Proof.
      intros m (Lm & Em). pose proof (cl_nx _ _ _ _ _ _ _ Cl) as Hn. assert (Dm := Nat.div_mod m nx ltac:(lia)).
      assert (Hc : (Nat.modulo m nx < nx)%nat) by (apply Nat.mod_upper_bound; lia). assert (Hr : (Nat.div m nx < ny)%nat) by (apply Nat.div_lt_upper_bound; lia).
      exists (Nat.div m nx), (Nat.modulo m nx). assert (E : m = (Nat.div m nx * nx + Nat.modulo m nx)%nat) by lia. split; [exact E|]. split; [exact Hr|]. split; [exact Hc|].
      split; [reflexivity|]. split; [reflexivity|]. set (r := Nat.div m nx) in *. set (c := Nat.modulo m nx) in *. split.
      - destruct (Nat.eq_dec r 0) as [|N0]; [left; assumption|]. destruct (Nat.eq_dec r (Nat.pred ny)) as [|N1]; [right; assumption|].
        exfalso. apply (inner_y r c Hc); [lia|]. rewrite <- E. exact Em.
      - destruct (Nat.eq_dec c 0) as [|N0]; [left; assumption|]. destruct (Nat.eq_dec c (Nat.pred nx)) as [|N1]; [right; assumption|].
        exfalso. apply (inner_x r c Hr); [lia|]. rewrite <- E. exact Em.
    Qed.
    Lemma missing_around : forall m x y, missing m -> (x < ny * nx)%nat -> (y < ny * nx)%nat -> touching nx x m -> touching nx m y -> touching nx x y.
    Proof.
      intros m x y Qm Lx Ly T1 T2. destruct (missing_corner m Qm) as (r & c & _ & Hr & Hc & Er & Ec & Cr & Cc). unfold touching in *. rewrite Er, Ec in *.
      assert ((Nat.modulo x nx < nx)%nat /\ (Nat.modulo y nx < nx)%nat) as [? ?] by (split; apply Nat.mod_upper_bound; lia).
      assert ((Nat.div x nx < ny)%nat /\ (Nat.div y nx < ny)%nat) as [? ?] by (split; apply Nat.div_lt_upper_bound; lia). lia.
    Qed.
    Lemma missing_apart : forall m m', missing m -> missing m' -> touching nx m m' -> m = m'.
    Proof.
      intros m m' Q Q' T. destruct (missing_corner m Q) as (r & c & E & Hr & Hc & Er & Ec & Cr & Cc). destruct (missing_corner m' Q') as (r' & c' & E' & Hr' & Hc' & Er' & Ec' & Cr' & Cc').
      unfold touching in T. rewrite Er, Ec, Er', Ec' in T. destruct Q as (_ & Q). destruct Q' as (_ & Q'). rewrite E in Q. rewrite E' in Q'.
      destruct (Nat.eq_dec r r') as [Eq|Nq].
      - subst r'. destruct (Nat.eq_dec c c') as [ <- |Nc]; [congruence|]. exfalso. destruct (cl_row _ _ _ _ _ _ _ Cl r Hr) as (c2 & L2 & K).
        assert (c2 = c \/ c2 = c') as [ -> | -> ] by lia; congruence.
      - exfalso. destruct (Nat.eq_dec c c') as [Eq|Nc].
        + subst c'. destruct (cl_col _ _ _ _ _ _ _ Cl c Hc) as (r2 & L2 & K). assert (r2 = r \/ r2 = r') as [ -> | -> ] by lia; congruence.
        + pose proof (cl_big _ _ _ _ _ _ _ Cl). lia.
    Qed.
  End Missing.

  Lemma clipped_complete : forall rr x0 y0 dim nx ny (g : grid) (h : hazard) k b, clipped rr x0 y0 dim nx ny g -> grid_wf g ->
    length (bf_state b) = (n_rows g * n_cols g)%nat -> lip g -> vpos g -> ent_position (h_ent h) = Interior -> 0 <= crad k -> in_rect rr (ccen k) ->
    complete_pole M (half_diag dim) h (g, b) k.
  Proof.
    intros rr x0 y0 dim nx ny g h k b Cl W Lb Li Po P Hk (Ix & Iy) [g' b'] E i c' Ec'. cbn [fst] in *.
    pose proof (cl_dim _ _ _ _ _ _ _ Cl) as Hd. pose proof (cl_nx _ _ _ _ _ _ _ Cl) as Hnx. pose proof (cl_ny _ _ _ _ _ _ _ Cl) as Hny.
    pose proof (cl_rows _ _ _ _ _ _ _ Cl) as Er. pose proof (cl_cols _ _ _ _ _ _ _ Cl) as Ec. pose proof (cl_cell _ _ _ _ _ _ _ Cl) as At.
    destruct (cl_inx _ _ _ _ _ _ _ Cl) as (Px1 & Px2). destruct (cl_iny _ _ _ _ _ _ _ Cl) as (Py1 & Py2).
    assert (Px : x0 <= px (ccen k) <= x0 + INR nx * dim) by lra. assert (Py : y0 <= py (ccen k) <= y0 + INR ny * dim) by lra.
    destruct (half_diag_sq dim Hd) as (Hh & H2).
    assert (Nr : n_rows g = ny) by (unfold n_rows; rewrite Er, map_length, seq_length; reflexivity).
    assert (Nc : n_cols g = nx) by (unfold n_cols; rewrite Ec, map_length, seq_length; reflexivity).
    pose proof (gw_len _ W) as Lg. rewrite Nr, Nc in Lg.
    destruct (register_pole_grid BSok M (half_diag dim) h k g b W) as (g1 & b1 & order & rows & cols & E1 & _ & _ & _ & _ & Rr & Rc & (b2 & b3 & F1 & F2) & O1 & O2); auto.
    { lra. }
    assert (K : Ok (g1, b1) = Ok (g', b')) by (rewrite <- E, <- E1; reflexivity). injection K as -> ->.
    assert (V : forall a ca, cell_at g a = Some ca -> c_rad ca = half_diag dim -> gap k (c_cen ca) <= fst (c_uni ca) + 4 * half_diag dim -> verdict k g a = Interior).
    { intros a ca Ea Era La. unfold verdict. rewrite Ea, Era. destruct (Rlt_dec (fst (c_uni ca) + 4 * half_diag dim) (gap k (c_cen ca))); [lra|reflexivity]. }
    assert (Bk : exists c, cell_at g i = Some c /\ c_cen c' = c_cen c).
    { destruct (in_dec Nat.eq_dec i order) as [Hi|Hi]; [rewrite (O1 i Hi) in Ec'|rewrite (O2 i Hi) in Ec'; eauto].
      destruct (cell_at g i) as [c|]; [|discriminate]. injection Ec' as <-. exists c. split; [reflexivity|apply lower_frame]. }
    destruct Bk as (c & Eci & Cen).
    destruct (in_dec Nat.eq_dec i order) as [Hi|Hi].
    { rewrite (O1 i Hi), Eci in Ec'. injection Ec' as <-. rewrite lower_val, Cen. apply Rmin_r. }
    rewrite (O2 i Hi), Eci in Ec'. injection Ec' as <-. clear Cen.
    destruct (Rle_lt_dec (fst (c_uni c)) (gap k (c_cen c))) as [L|L]; [exact L|]. exfalso. apply Hi.
    (* the cell's coordinates *)
    assert (Li' : (i < ny * nx)%nat).
    { rewrite <- Lg. apply nth_error_Some. unfold cell_at in Eci. intros N. rewrite N in Eci. discriminate. }
    assert (Di := Nat.div_mod i nx ltac:(lia)). set (ri := Nat.div i nx) in *. set (ci := Nat.modulo i nx) in *.
    assert (Hci : (ci < nx)%nat) by (apply Nat.mod_upper_bound; lia). assert (Hri : (ri < ny)%nat) by (apply Nat.div_lt_upper_bound; lia).
    assert (Ei : i = (ri * nx + ci)%nat) by lia.
    assert (A1 := Eci). rewrite Ei in A1. destruct (At ri ci c Hri Hci A1) as (A2 & A3). clear A1.
    (* the middle cell *)
    destruct rows as [r0 r1], cols as [c0 c1]. rewrite Er in Rr. rewrite Ec in Rc.
    set (w := crad k + 2 * half_diag dim) in *. assert (Wp : 0 <= w) by (unfold w; lra). assert (Wd : dim <= w) by (unfold w; nra).
    assert (Rr' : @range_in R (RNumT Reqb M) BS (map (mid y0 dim) (seq 0 ny)) (py (ccen k) - w) (py (ccen k) + w) = Ok (r0, r1)).
    { replace (py (ccen k) - w) with (py (ccen k) - crad k - 2 * half_diag dim) by (unfold w; lra).
      replace (py (ccen k) + w) with (py (ccen k) + crad k + 2 * half_diag dim) by (unfold w; lra). exact Rr. }
    assert (Rc' : @range_in R (RNumT Reqb M) BS (map (mid x0 dim) (seq 0 nx)) (px (ccen k) - w) (px (ccen k) + w) = Ok (c0, c1)).
    { replace (px (ccen k) - w) with (px (ccen k) - crad k - 2 * half_diag dim) by (unfold w; lra).
      replace (px (ccen k) + w) with (px (ccen k) + crad k + 2 * half_diag dim) by (unfold w; lra). exact Rc. }
    destruct (mid_offset BSok M y0 dim ny (py (ccen k)) w r0 r1 Hd Hny Py Wp Rr') as (Lr & Or).
    destruct (mid_offset BSok M x0 dim nx (px (ccen k)) w c0 c1 Hd Hnx Px Wp Rc') as (Lc & Oc).
    pose proof (fill_first g (verdict k g) _ _ _ _ _ _ F1 F2) as Fst. cbn [fst snd] in Fst. rewrite Nc in Fst.
    assert (My := fun L => mid_extreme BSok M y0 dim ny (py (ccen k)) w r0 r1 Hd L (proj2 Py) Wd Rr'). cbn zeta in My.
    assert (Mx := fun L => mid_extreme BSok M x0 dim nx (px (ccen k)) w c0 c1 Hd L (proj2 Px) Wd Rc'). cbn zeta in Mx.
    set (mr := (r0 + Nat.div (r1 - r0) 2)%nat) in *. set (mc := (c0 + Nat.div (c1 - c0) 2)%nat) in *.
    assert (Hmr : (mr < ny)%nat).
    { unfold mr. pose proof (Nat.div_le_upper_bound (r1 - r0) 2 (r1 - r0) ltac:(lia) ltac:(lia)). lia. }
    assert (Hmc : (mc < nx)%nat).
    { unfold mc. pose proof (Nat.div_le_upper_bound (c1 - c0) 2 (c1 - c0) ltac:(lia) ltac:(lia)). lia. }
    assert (Em : cell_at g (mr * nx + mc) <> None).
    { destruct (cl_big _ _ _ _ _ _ _ Cl) as [Bg|Bg].
      - destruct (Mx Bg) as (M1 & M2). destruct (Nat.eq_dec mc 0) as [Z|Z]; [|apply (inner_x _ _ _ _ _ _ _ Cl); lia].
        apply (cl_x _ _ _ _ _ _ _ Cl); auto. rewrite Z. specialize (M1 Z). destruct (cl_edgex _ _ _ _ _ _ _ Cl) as (_ & Hi2).
        assert (Q : mid x0 dim 1 <= mid x0 dim (Nat.pred nx)) by (apply mid_le; [exact Hd|lia]). rewrite mid_S in Q. lra.
      - destruct (My Bg) as (M1 & M2). destruct (Nat.eq_dec mr 0) as [Z|Z]; [|apply (inner_y _ _ _ _ _ _ _ Cl); lia].
        apply (cl_y _ _ _ _ _ _ _ Cl); auto. rewrite Z. specialize (M1 Z). destruct (cl_edgey _ _ _ _ _ _ _ Cl) as (_ & Hi2).
        assert (Q : mid y0 dim 1 <= mid y0 dim (Nat.pred ny)) by (apply mid_le; [exact Hd|lia]). rewrite mid_S in Q. lra. }
    set (bnd := (crad k + 2 * half_diag dim + 5 / 2 * dim) / 2) in *.
    set (open := fun x => verdict k g x = Interior \/ missing nx ny g x).
    (* cells close to the centre in both directions are Interior *)
    assert (Close : forall r cc, (r < ny)%nat -> (cc < nx)%nat -> Rabs (mid y0 dim r - py (ccen k)) <= bnd -> Rabs (mid x0 dim cc - px (ccen k)) <= bnd ->
               open (r * nx + cc)%nat).
    { intros r cc Hr Hcc By Bx. destruct (cell_at g (r * nx + cc)) as [ca|] eqn:Q1; [|right; split; [nia|exact Q1]]. left.
      destruct (At r cc ca Hr Hcc Q1) as (Q2 & Q3). apply (V _ ca Q1 Q3). rewrite Q2.
      pose proof (Po _ _ Q1) as Pc. cbn beta in Pc. unfold gap.
      assert (Dg := diag_bound dim (crad k) (Pt (mid x0 dim cc) (mid y0 dim r)) (ccen k) Hd Hk Bx By). apply Rmax_lub; lra. }
    destruct (fill_correct g (verdict k g) (S (length (g_cells g))) (r0, r1) (c0, c1)) as (b4 & o4 & b5 & G1 & G2 & _ & _ & _ & _ & Dj);
      [rewrite Lg, Nr, Nc; lia|cbn [fst snd]; rewrite Nr; lia|cbn [fst snd]; rewrite Nc; lia|].
    rewrite F1 in G1. injection G1 as <-. rewrite F2 in G2. injection G2 as <- <-. rewrite Nr, Nc in Dj.
    assert (Vm : verdict k g (mr * nx + mc)%nat = Interior).
    { destruct (Close mr mc Hmr Hmc) as [Q|(_ & Q)]; [exact Or|exact Oc|exact Q|contradiction]. }
    assert (Hm : In (mr * nx + mc)%nat order) by (destruct order as [|o order]; [discriminate|injection Fst as <-; left; reflexivity]).
    destruct Dj as [(_ & X & _)|(pre & s & post & _ & Eo & X & _ & _ & Re)]; [specialize (X _ Hm); congruence|].
    destruct pre as [|o pre].
    2: { rewrite Eo in Fst. cbn in Fst. injection Fst as ->. specialize (X _ (or_introl eq_refl)). congruence. }
    rewrite Eo in Fst. cbn in Fst. injection Fst as ->. rewrite Eo. cbn [app]. apply Re. split; [|intros []].
    assert (Fr : reach ny nx (fun x => verdict k g x = Interior) (mr * nx + mc) i); [|exact Fr].
    apply (shortcut ny nx _ (missing nx ny g)).
    { intros x. apply missing_dec. } { intros m x y. eapply missing_around. exact Cl. } { intros m m'. eapply missing_apart. exact Cl. }
    { nia. } { intros (_ & Q). contradiction. } { intros (_ & Q). congruence. }
    fold open.
    (* the walk *)
    set (p := ccen k) in *. set (yx := mid x0 dim ci). set (yy := mid y0 dim ri).
    assert (Hcc : c_cen c = Pt yx yy) by exact A2.
    destruct (INR_above ((Rabs (yx - px p) + Rabs (yy - py p)) / dim)) as (N & HN).
    assert (HN' : Rabs (yx - px p) + Rabs (yy - py p) < INR N * dim).
    { apply (Rmult_lt_compat_r dim) in HN; [|exact Hd]. unfold Rdiv in HN. rewrite Rmult_assoc, Rinv_l in HN by lra. lra. }
    assert (N0 : 0 < INR N). { pose proof (Rabs_pos (yx - px p)). pose proof (Rabs_pos (yy - py p)). nra. }
    set (zx := fun t : nat => px p + INR t / INR N * (yx - px p)). set (zy := fun t : nat => py p + INR t / INR N * (yy - py p)).
    assert (T01 : forall t, (t <= N)%nat -> 0 <= INR t / INR N <= 1).
    { intros t Ht. apply le_INR in Ht. pose proof (pos_INR t). split; [apply Rmult_le_pos; [assumption|left; apply Rinv_0_lt_compat; exact N0]|].
      apply Rmult_le_reg_r with (INR N); [exact N0|]. unfold Rdiv. rewrite Rmult_assoc, Rinv_l by lra. lra. }
    assert (Yx : x0 <= yx <= x0 + INR nx * dim).
    { assert (Q := Hci). apply Nat.le_succ_l, le_INR in Q. rewrite S_INR in Q. pose proof (pos_INR ci). unfold yx, mid. nra. }
    assert (Yy : y0 <= yy <= y0 + INR ny * dim).
    { assert (Q := Hri). apply Nat.le_succ_l, le_INR in Q. rewrite S_INR in Q. pose proof (pos_INR ri). unfold yy, mid. nra. }
    (* cells near the segment from the centre to the cell are Interior *)
    assert (Seg : forall t r cc, (t <= N)%nat -> (r < ny)%nat -> (cc < nx)%nat -> near y0 dim (zy t) r -> near x0 dim (zx t) cc ->
               open (r * nx + cc)%nat).
    { intros t r cc Ht Hr Hcx Ny Nx. destruct (cell_at g (r * nx + cc)) as [ca|] eqn:Q1; [|right; split; [nia|exact Q1]]. left.
      destruct (At r cc ca Hr Hcx Q1) as (Q2 & Q3). apply (V _ ca Q1 Q3).
      set (z := Pt (zx t) (zy t)). set (a := c_cen ca) in *. specialize (T01 t Ht). set (u := INR t / INR N) in *.
      assert (Za : edist z a <= half_diag dim).
      { apply edist_le; [lra|]. rewrite Q2. unfold z. cbn [px py]. unfold near in *. apply Rabs_le_inv in Nx. apply Rabs_le_inv in Ny.
        assert (R1 : (zx t - mid x0 dim cc) ^ 2 <= dim / 2 * (dim / 2)) by nra. assert (R2 : (zy t - mid y0 dim r) ^ 2 <= dim / 2 * (dim / 2)) by nra. lra. }
      set (dy := edist (c_cen c) p). assert (Dy0 : 0 <= dy) by apply edist_nonneg.
      assert (Dy2 : dy * dy = (yx - px p) ^ 2 + (yy - py p) ^ 2) by (unfold dy; rewrite edist_sq, Hcc; reflexivity).
      assert (Zp : edist z p <= u * dy).
      { apply edist_le; [nra|]. unfold z. cbn [px py]. unfold zx, zy. fold u. replace (u * dy * (u * dy)) with (u * u * (dy * dy)) by ring. rewrite Dy2. lra. }
      assert (Zy : edist z (c_cen c) <= (1 - u) * dy).
      { apply edist_le; [nra|]. rewrite Hcc. unfold z. cbn [px py]. unfold zx, zy. fold u.
        replace ((1 - u) * dy * ((1 - u) * dy)) with ((1 - u) * (1 - u) * (dy * dy)) by ring. rewrite Dy2. lra. }
      pose proof (Li i (r * nx + cc)%nat c ca Eci Q1) as Lp. pose proof (Po _ _ Q1) as Pa. cbn beta in Pa. fold a in Lp.
      pose proof (edist_tri (c_cen c) z a) as T1. rewrite (edist_sym (c_cen c) z) in T1.
      pose proof (edist_tri a z p) as T2. rewrite (edist_sym a z) in T2.
      unfold gap in L |- *. fold p in L |- *. fold dy in L. apply Rmax_lub; [lra|].
      assert (L1 : 0 < fst (c_uni c)) by (pose proof (Rmax_l 0 (dy - crad k)); lra). pose proof (Rmax_r 0 (dy - crad k)). lra. }
    assert (Walk : forall t, (t <= N)%nat -> forall r cc, (r < ny)%nat -> (cc < nx)%nat -> near y0 dim (zy t) r -> near x0 dim (zx t) cc ->
               reach ny nx open (mr * nx + mc) (r * nx + cc)).
    { induction t as [|t IH]; intros Ht r cc Hr Hcx Ny Nx.
      - assert (Z1 : zx 0%nat = px p) by (unfold zx; cbn; lra). assert (Z2 : zy 0%nat = py p) by (unfold zy; cbn; lra). rewrite Z1 in Nx. rewrite Z2 in Ny.
        assert (Bx : Rabs (mid x0 dim cc - px p) <= bnd) by (unfold near in Nx; rewrite Rabs_minus_sym; unfold bnd; lra).
        assert (By : Rabs (mid y0 dim r - py p) <= bnd) by (unfold near in Ny; rewrite Rabs_minus_sym; unfold bnd; lra).
        apply (reach_mono _ _ (in_box nx (Nat.min mr r, Nat.max mr r) (Nat.min mc cc, Nat.max mc cc))).
        + intros x [B1 B2]. cbn [fst snd] in B1, B2. assert (Dx := Nat.div_mod x nx ltac:(lia)).
          replace x with (Nat.div x nx * nx + Nat.modulo x nx)%nat by lia. apply Close; try lia.
          * apply (mid_between y0 dim (Nat.min mr r) (Nat.max mr r)); auto; [destruct (Nat.min_spec mr r) as [[_ ->]|[_ ->]]; assumption|destruct (Nat.max_spec mr r) as [[_ ->]|[_ ->]]; assumption].
          * apply (mid_between x0 dim (Nat.min mc cc) (Nat.max mc cc)); auto; [destruct (Nat.min_spec mc cc) as [[_ ->]|[_ ->]]; assumption|destruct (Nat.max_spec mc cc) as [[_ ->]|[_ ->]]; assumption].
        + rewrite <- Nr, <- Nc. apply box_connected; cbn [fst snd]; rewrite ?Nr, ?Nc; lia.
      - assert (Bt : forall a b q v n, (t <= N)%nat -> v = q + INR t / INR N * (b - q) -> a <= q <= a + INR n * dim -> a <= b <= a + INR n * dim -> a <= v <= a + INR n * dim).
        { intros a b6 q v n Lt -> B1 B2. specialize (T01 t Lt). set (u := INR t / INR N) in *. split; nra. }
        destruct (near_ex y0 dim ny (zy t) Hd Hny) as (r' & Hr' & Nr').
        { apply (Bt y0 yy (py p)); [lia|reflexivity|exact Py|exact Yy]. }
        destruct (near_ex x0 dim nx (zx t) Hd Hnx) as (c' & Hc' & Nc').
        { apply (Bt x0 yx (px p)); [lia|reflexivity|exact Px|exact Yx]. }
        assert (Sx : Rabs (zx (S t) - zx t) < dim).
        { unfold zx. rewrite S_INR. replace (px p + (INR t + 1) / INR N * (yx - px p) - (px p + INR t / INR N * (yx - px p))) with ((yx - px p) * / INR N) by (unfold Rdiv; ring).
          rewrite Rabs_mult, (Rabs_right (/ INR N)) by (apply Rle_ge; left; apply Rinv_0_lt_compat; exact N0).
          apply Rmult_lt_reg_r with (INR N); [exact N0|]. rewrite Rmult_assoc, Rinv_l by lra. pose proof (Rabs_pos (yy - py p)). lra. }
        assert (Sy : Rabs (zy (S t) - zy t) < dim).
        { unfold zy. rewrite S_INR. replace (py p + (INR t + 1) / INR N * (yy - py p) - (py p + INR t / INR N * (yy - py p))) with ((yy - py p) * / INR N) by (unfold Rdiv; ring).
          rewrite Rabs_mult, (Rabs_right (/ INR N)) by (apply Rle_ge; left; apply Rinv_0_lt_compat; exact N0).
          apply Rmult_lt_reg_r with (INR N); [exact N0|]. rewrite Rmult_assoc, Rinv_l by lra. pose proof (Rabs_pos (yx - px p)). lra. }
        apply reach_step with (r' * nx + c')%nat.
        + apply IH; auto. lia.
        + apply (Seg t); auto. lia.
        + nia.
        + assert (I1 : Nat.div (r * nx + cc) nx = r /\ Nat.modulo (r * nx + cc) nx = cc) by (rewrite <- Nc; apply idx_div_mod; rewrite Nc; exact Hcx).
          assert (I2 : Nat.div (r' * nx + c') nx = r' /\ Nat.modulo (r' * nx + c') nx = c') by (rewrite <- Nc; apply idx_div_mod; rewrite Nc; exact Hc').
          unfold touching. destruct I1 as [-> ->]. destruct I2 as [-> ->].
          rewrite Rabs_minus_sym in Sx, Sy.
          split; [apply (near_step y0 dim (zy t) (zy (S t)) r' r Hd Nr' Ny Sy)|]. rewrite Rabs_minus_sym in Sy.
          split; [apply (near_step y0 dim (zy (S t)) (zy t) r r' Hd Ny Nr' Sy)|].
          split; [apply (near_step x0 dim (zx t) (zx (S t)) c' cc Hd Nc' Nx Sx)|]. rewrite Rabs_minus_sym in Sx.
          apply (near_step x0 dim (zx (S t)) (zx t) cc c' Hd Nx Nc' Sx). }
    rewrite Ei. apply (Walk N); auto.
    - assert (zy N = yy) as ->; [|apply near_self; exact Hd]. unfold zy, Rdiv. rewrite Rinv_r by lra. lra.
    - assert (zx N = yx) as ->; [|apply near_self; exact Hd]. unfold zx, Rdiv. rewrite Rinv_r by lra. lra.
  Qed.

  Lemma clipped_reaches : forall rr x0 y0 dim nx ny g0, clipped rr x0 y0 dim nx ny g0 -> reaches M (half_diag dim) (fun k => in_rect rr (ccen k)) g0.
  Proof.
    intros rr x0 y0 dim nx ny g0 Cl g h k b Sg W Lb Li Po P K0 Ki.
    apply (clipped_complete rr x0 y0 dim nx ny); auto. eapply clipped_same; eassumption.
  Qed.
End Frame.
