(** Registering hazards in the proximity grid. *)
From Coq Require Import List Bool Arith Lia Permutation Sorted.
From Verif Require Import Base Num GeoModel HazardModel QTModel TransfModel HpgModel CdeModel BaseProofs CdeSpec GeoSpec ParityProofs
  GeoPrimProofs PlaceSpec HpgSpec HpgGridProofs HpgFillProofs HpgCellProofs.
From Coq Require Import Reals Lra.
From Verif Require Import GeoModel HazardModel QTModel TransfModel HpgModel CdeModel CdeSpec GeoSpec PlaceSpec HpgSpec.
Import ListNotations.
Local Open Scope R_scope.

Section Reg.
  Context {D : Type} {ED : EqD D} {BS : BSearch}.
  Hypothesis BSok : bsearch_ok BS.
  Variable M : R.
  #[local] Instance NMr : Num R := RNumT Reqb M.
  Local Notation cell := (cell R D).
  Local Notation hazard := (hazard R D).
  Local Notation fact := (CdeSpec.fact R D).
  Local Notation grid := (grid R cell).
  Local Notation ssorted := (StronglySorted Rlt).

  Definition cell_at (g : grid) (i : nat) : option cell := match nth_error (g_cells g) i with Some o => o | None => None end.
  (** rows and columns are sorted, non-empty, and match the number of cells *)
  Record grid_wf (g : grid) : Prop := {
    gw_rows : ssorted (g_rows g); gw_cols : ssorted (g_cols g);
    gw_r0 : g_rows g <> []; gw_c0 : g_cols g <> [];
    gw_len : length (g_cells g) = (n_rows g * n_cols g)%nat }.

  Lemma traverse_grid : forall fuel v (g g' : grid) b, g_rows g = g_rows g' -> g_cols g = g_cols g' -> traverse fuel v g b = traverse fuel v g' b.
  Proof.
    intros fuel v [c r l] [c' r' l'] b Er Ec. cbn [g_rows g_cols] in Er, Ec. subst r' l'. revert b.
    induction fuel as [|fuel IH]; intros b; cbn [traverse]; [reflexivity|].
    destruct (bf_pop b) as [[[i|] b1]|]; cbn [rbind]; try reflexivity.
    change (bf_report b1 i (v i) (Grid c' r l)) with (bf_report b1 i (v i) (Grid c r l)).
    destruct (bf_report b1 i (v i) (Grid c r l)) as [b2|]; cbn [rbind]; [|reflexivity]. rewrite IH. reflexivity.
  Qed.

  (** the verdict of a cell about a pole *)
  Definition verdict (k : rcircle) (g : grid) (i : nat) : geopos :=
    match cell_at g i with
    | Some c => if Rlt_dec (fst (c_uni c) + 4 * c_rad c) (gap k (c_cen c)) then
                  if Rle_dec (fst (c_uni c)) (gap k (c_cen c)) then Exterior else Interior else Interior
    | None => Exterior
    end.

  Lemma fill_loop_ok : forall fuel (h : hazard) k g0 (g : grid) b l b', ent_position (h_ent h) = Interior -> 0 <= crad k ->
    g_rows g = g_rows g0 -> g_cols g = g_cols g0 ->
    traverse fuel (verdict k g0) g0 b = Ok (l, b') -> NoDup l ->
    (forall i, In i l -> (i < length (g_cells g))%nat /\ cell_at g i = cell_at g0 i) ->
    exists g', fill_loop fuel h k g b = Ok g' /\ g_rows g' = g_rows g /\ g_cols g' = g_cols g /\ length (g_cells g') = length (g_cells g) /\
      (forall i, In i l -> cell_at g' i = option_map (fun c => lower c (gap k (c_cen c)) (h_ent h)) (cell_at g i)) /\
      (forall i, ~ In i l -> cell_at g' i = cell_at g i).
  Proof.
    intros fuel h k g0 g b l b' P Hk. revert g b l b'.
    induction fuel as [|fuel IH]; intros g b l b' Er Ec E ND Hl; cbn [traverse fill_loop] in *.
    - destruct (bf_pop b) as [[[i|] b1]|]; cbn [rbind] in *; try discriminate. injection E as <- <-.
      exists g. repeat split; auto. intros i [].
    - destruct (bf_pop b) as [[[i|] b1]|]; cbn [rbind] in *; try discriminate.
      2: { injection E as <- <-. exists g. repeat split; auto. intros i []. }
      apply rbind_ok in E as (b2 & E2 & E). apply rbind_ok in E as ([l' b3] & E3 & E). injection E as <- <-.
      inversion ND as [|? ? Ni ND']; subst. destruct (Hl i (or_introl eq_refl)) as [Li Ei].
      destruct (nth_error (g_cells g) i) as [o|] eqn:Eo; [|apply nth_error_None in Eo; lia]. cbn [expect rbind].
      assert (Co : cell_at g i = o) by (unfold cell_at; rewrite Eo; reflexivity). rewrite Co in Ei.
      destruct o as [c|].
      + destruct (register_pole_ok M c h k P Hk) as (u & Eu & U1 & U2).
        change (@cell_register_pole R NMr D c h k) with (@cell_register_pole R (NM' M) D c h k). rewrite Eu. cbn [rbind].
        set (c' := lower c (gap k (c_cen c)) (h_ent h)). set (g1 := Grid (vset i (Some c') (g_cells g)) (g_rows g) (g_cols g)).
        assert (Vd : verdict k g0 i = match u with NeighborsNotAffected => Exterior | _ => Interior end).
        { unfold verdict. rewrite <- Ei. destruct (Rlt_dec (fst (c_uni c) + 4 * c_rad c) (gap k (c_cen c))) as [L|L]; [destruct (Rle_dec (fst (c_uni c)) (gap k (c_cen c))) as [L'|L']|].
          - assert (u = NeighborsNotAffected) as -> by (apply U2; split; lra). reflexivity.
          - destruct u; try reflexivity. destruct (proj1 U2 eq_refl). lra.
          - destruct u; try reflexivity. destruct (proj1 U2 eq_refl). lra. }
        rewrite Vd in E2.
        assert (E2' : bf_report b1 i match u with NeighborsNotAffected => Exterior | _ => Interior end g1 = Ok b2).
        { rewrite <- E2. clear -Er Ec. destruct g0 as [a0 r0 k0]. cbn [g_rows g_cols] in *. subst. reflexivity. }
        rewrite E2'. cbn [rbind].
        destruct (IH g1 b2 l' b3) as (g' & F1 & F2 & F3 & F4 & F5 & F6); [exact Er|exact Ec|exact E3|exact ND'| |].
        { intros j Hj. destruct (Hl j (or_intror Hj)) as [Lj Ej]. unfold g1. cbn [g_cells]. rewrite vset_length. split; [exact Lj|].
          rewrite <- Ej. unfold cell_at, g1. cbn [g_cells]. rewrite vset_neq; [reflexivity|]. intros ->. contradiction. }
        exists g'. split; [exact F1|]. split; [exact F2|]. split; [exact F3|]. split; [rewrite F4; unfold g1; cbn [g_cells]; apply vset_length|].
        assert (C1 : cell_at g1 i = Some c') by (unfold cell_at, g1; cbn [g_cells]; rewrite vset_eq by exact Li; reflexivity).
        assert (C2 : forall j, j <> i -> cell_at g1 j = cell_at g j) by (intros j Nj; unfold cell_at, g1; cbn [g_cells]; rewrite vset_neq by congruence; reflexivity).
        split.
        * intros j [<-|Hj].
          -- rewrite F6 by exact Ni. rewrite C1, Co. reflexivity.
          -- rewrite F5 by exact Hj. rewrite C2; [reflexivity|]. intros ->. contradiction.
        * intros j Nj. rewrite F6 by (intros K; apply Nj; right; exact K). apply C2. intros ->. apply Nj. left. reflexivity.
      + assert (Vd : verdict k g0 i = Exterior) by (unfold verdict; rewrite <- Ei; reflexivity). rewrite Vd in E2.
        assert (E2' : bf_report b1 i Exterior g = Ok b2).
        { rewrite <- E2. clear -Er Ec. destruct g0 as [a0 r0 k0], g as [a1 r1 k1]. cbn [g_rows g_cols] in *. subst. reflexivity. }
        rewrite E2'. cbn [rbind].
        destruct (IH g b2 l' b3) as (g' & F1 & F2 & F3 & F4 & F5 & F6); [exact Er|exact Ec|exact E3|exact ND'| |].
        { intros j Hj. apply Hl. right. exact Hj. }
        exists g'. split; [exact F1|]. split; [exact F2|]. split; [exact F3|]. split; [exact F4|]. split.
        * intros j [<-|Hj]; [|apply F5; exact Hj]. rewrite F6 by exact Ni. rewrite Co. reflexivity.
        * intros j Nj. apply F6. intros K. apply Nj. right. exact K.
  Qed.

  Lemma map_const : forall {A} (l : list A), map (fun _ => NotQueued) l = repeat NotQueued (length l).
  Proof. induction l as [|x l IH]; simpl; [reflexivity|]. f_equal. exact IH. Qed.

  (** one pole: the cells visited are lowered, all others kept *)
  Lemma register_pole_grid : forall rad (h : hazard) k (g : grid) b, grid_wf g -> length (bf_state b) = (n_rows g * n_cols g)%nat ->
    ent_position (h_ent h) = Interior -> 0 <= crad k -> 0 <= rad ->
    exists g' b' order rows cols, hpg_register_pole rad h (g, b) k = Ok (g', b') /\
      g_rows g' = g_rows g /\ g_cols g' = g_cols g /\ length (g_cells g') = length (g_cells g) /\
      length (bf_state b') = (n_rows g * n_cols g)%nat /\
      range_in (g_rows g) (py (ccen k) - crad k - 2 * rad) (py (ccen k) + crad k + 2 * rad) = Ok rows /\
      range_in (g_cols g) (px (ccen k) - crad k - 2 * rad) (px (ccen k) + crad k + 2 * rad) = Ok cols /\
      (exists b1 b2, fill_start g rows cols = Ok b1 /\ traverse (S (length (g_cells g))) (verdict k g) g b1 = Ok (order, b2)) /\
      (forall i, In i order -> cell_at g' i = option_map (fun c => lower c (gap k (c_cen c)) (h_ent h)) (cell_at g i)) /\
      (forall i, ~ In i order -> cell_at g' i = cell_at g i).
  Proof.
    intros rad h k g b W Lb P Hk Hr. destruct W as [Sr Sc R0 C0 Ln]. unfold hpg_register_pole, bf_reset.
    destruct (range_ok BSok M (g_rows g) (py (ccen k) - crad k - 2 * rad) (py (ccen k) + crad k + 2 * rad) Sr R0) as (r0 & r1 & Er & Rl & Ru & _); [lra|].
    destruct (range_ok BSok M (g_cols g) (px (ccen k) - crad k - 2 * rad) (px (ccen k) + crad k + 2 * rad) Sc C0) as (c0 & c1 & Ec & Cl & Cu & _); [lra|].
    assert (Er' : range_in (g_rows g) (y_min (seed_box rad k)) (y_max (seed_box rad k)) = Ok (r0, r1)).
    { rewrite <- Er. unfold seed_box, c_bbox, f2. cbn [y_min y_max fadd fsub fmul f1 NMr RNumT]. replace (1 + 1) with 2 by lra. reflexivity. }
    assert (Ec' : range_in (g_cols g) (x_min (seed_box rad k)) (x_max (seed_box rad k)) = Ok (c0, c1)).
    { rewrite <- Ec. unfold seed_box, c_bbox, f2. cbn [x_min x_max fadd fsub fmul f1 NMr RNumT]. replace (1 + 1) with 2 by lra. reflexivity. }
    rewrite Er', Ec'. cbn [rbind]. rewrite map_const, Lb.
    destruct (fill_correct g (verdict k g) (S (length (g_cells g))) (r0, r1) (c0, c1)) as (b1 & order & b2 & E1 & E2 & ND & Bd & _); [rewrite Ln; unfold n_rows, n_cols; lia|unfold n_rows; cbn [fst snd]; lia|unfold n_cols; cbn [fst snd]; lia|].
    change (fill_start g (r0, r1) (c0, c1) = Ok b1) in E1. unfold fill_start in E1. rewrite E1. cbn [rbind].
    destruct (fill_loop_ok (S (length (g_cells g))) h k g g b1 order b2 P Hk eq_refl eq_refl E2 ND) as (g' & F1 & F2 & F3 & F4 & F5 & F6).
    { intros i Hi. split; [rewrite Ln; apply Bd; exact Hi|reflexivity]. }
    rewrite F1. cbn [rbind]. exists g', b1, order, (r0, r1), (c0, c1). split; [reflexivity|]. split; [exact F2|]. split; [exact F3|]. split; [exact F4|].
    split.
    { clear -E1. unfold bf_init_queue in E1. cbn [bf_rows bf_cols] in E1. destruct (Nat.leb r0 r1 && Nat.leb c0 c1)%bool; [|discriminate].
      apply rbind_ok in E1 as (m & Em & E1). apply rbind_ok in E1 as (st & Es & E1). injection E1 as <-. cbn [bf_state].
      unfold cs_update in Es. apply rbind_ok in Es as (s & _ & Es). apply rbind_ok in Es as (s' & _ & Es). injection Es as <-.
      rewrite vset_length. cbn [bf_state]. rewrite repeat_length. reflexivity. }
    split; [exact Er|]. split; [exact Ec|]. split; [|split; [exact F5|exact F6]]. exists b1, b2. split; [exact E1|exact E2].
  Qed.
  (** *** grids with the same frame *)
  Definition same_grid (g g' : grid) : Prop :=
    g_rows g' = g_rows g /\ g_cols g' = g_cols g /\ length (g_cells g') = length (g_cells g) /\
    forall i, match cell_at g i, cell_at g' i with
              | Some c, Some c' => same_frame c c' | None, None => True | _, _ => False end.
  Definition all_cells (P : cell -> Prop) (g : grid) : Prop := forall i c, cell_at g i = Some c -> P c.
  Lemma same_grid_refl : forall g, same_grid g g.
  Proof. intros g. repeat split. intros i. destruct (cell_at g i); [apply same_refl|exact I]. Qed.
  Lemma same_grid_trans : forall a b c, same_grid a b -> same_grid b c -> same_grid a c.
  Proof.
    intros a b c (A1 & A2 & A3 & A4) (B1 & B2 & B3 & B4). split; [congruence|]. split; [congruence|]. split; [congruence|]. intros i.
    specialize (A4 i). specialize (B4 i). destruct (cell_at a i), (cell_at b i), (cell_at c i); try contradiction; auto. eapply same_trans; eassumption.
  Qed.
  Lemma same_grid_wf : forall g g', same_grid g g' -> grid_wf g -> grid_wf g'.
  Proof. intros g g' (E1 & E2 & E3 & _) [W1 W2 W3 W4 W5]. split; unfold n_rows, n_cols in *; rewrite ?E1, ?E2, ?E3; auto. Qed.
  Lemma lower_frame : forall (c : cell) d (e : entity D), same_frame c (lower c d e).
  Proof. intros c d e. exact (lower_same c d e). Qed.

  (** a value of a cell is static or a distance to a pole of the shape its owner stands for *)
  Definition real_cell (shp : entity D -> poly R * bool) (c : cell) : Prop :=
    c_uni c = c_stat c \/ exists k, In k (poles_of (fst (shp (snd (c_uni c))))) /\ fst (c_uni c) = gap k (c_cen c).
  Lemma lower_real : forall shp c d e k, real_cell shp c -> In k (poles_of (fst (shp e))) -> d = gap k (c_cen c) -> real_cell shp (lower c d e).
  Proof. intros shp c d e k H Hk ->. unfold lower. destruct (Rlt_dec (gap k (c_cen c)) (fst (c_uni c))); [|exact H]. right. exists k. auto. Qed.
  Lemma owned_real : forall shp A c, Forall (fun f => shp (f_ent f) = (f_poly f, f_act f)) A -> owned_cell (D := D) [] A c -> real_cell shp c.
  Proof.
    intros shp A c H [O|[[]|(f & k & Hf & Ef & Hk & Ev)]]; [left; exact O|]. right. exists k. split; [|exact Ev].
    rewrite Forall_forall in H. rewrite <- Ef, (H f Hf). exact Hk.
  Qed.

  (** all poles of a hazard *)
  Lemma register_poles_grid : forall rad (h : hazard) ks (g : grid) b, grid_wf g -> length (bf_state b) = (n_rows g * n_cols g)%nat ->
    ent_position (h_ent h) = Interior -> (forall k, In k ks -> 0 <= crad k) -> 0 <= rad ->
    exists g' b', rfold (hpg_register_pole rad h) ks (g, b) = Ok (g', b') /\ same_grid g g' /\
      (forall i c c', cell_at g i = Some c -> cell_at g' i = Some c' ->
         fst (c_uni c') <= fst (c_uni c) /\
         (c' = c \/ exists k, In k ks /\ c' = set_uni c (gap k (c_cen c), h_ent h) /\ gap k (c_cen c) < fst (c_uni c))).
  Proof.
    intros rad h ks. induction ks as [|k ks IH]; intros g b W Lb P Hk Hr; cbn [rfold].
    - exists g, b. split; [reflexivity|]. split; [apply same_grid_refl|]. intros i c c' E E'. rewrite E in E'. injection E' as <-. split; [lra|left; reflexivity].
    - destruct (register_pole_grid rad h k g b W Lb P (Hk k (or_introl eq_refl)) Hr) as (g1 & b1 & order & rows & cols & E & E1 & E2 & E3 & E4 & _ & _ & _ & E5 & E6).
      rewrite E. cbn [rbind].
      assert (Sg : same_grid g g1).
      { split; [exact E1|]. split; [exact E2|]. split; [exact E3|]. intros i. destruct (in_dec Nat.eq_dec i order) as [Hi|Hi].
        - rewrite (E5 i Hi). destruct (cell_at g i) as [c|]; cbn [option_map]; [apply lower_frame|exact I].
        - rewrite (E6 i Hi). destruct (cell_at g i) as [c|]; [apply same_refl|exact I]. }
      destruct (IH g1 b1) as (g' & b' & F & Sg' & L).
      { eapply same_grid_wf; eassumption. }
      { unfold n_rows, n_cols in *. rewrite E1, E2. exact E4. }
      { exact P. } { intros k' Hk'. apply Hk. right. exact Hk'. } { exact Hr. }
      exists g', b'. split; [exact F|]. split; [eapply same_grid_trans; eassumption|].
      intros i c c' Ec Ec'.
      assert (C1 : exists c1, cell_at g1 i = Some c1 /\ (c1 = c \/ c1 = lower c (gap k (c_cen c)) (h_ent h))).
      { destruct (in_dec Nat.eq_dec i order) as [Hi|Hi]; [rewrite (E5 i Hi)|rewrite (E6 i Hi)]; rewrite Ec; cbn [option_map]; eauto. }
      destruct C1 as (c1 & Ec1 & C1). destruct (L i c1 c' Ec1 Ec') as (L1 & L2).
      assert (C1' : fst (c_uni c1) <= fst (c_uni c) /\ (c1 = c \/ (c1 = set_uni c (gap k (c_cen c), h_ent h) /\ gap k (c_cen c) < fst (c_uni c)))).
      { destruct C1 as [ -> | -> ]; [split; [lra|left; reflexivity]|]. unfold lower. destruct (Rlt_dec (gap k (c_cen c)) (fst (c_uni c))); cbn; [split; [lra|right; auto]|split; [lra|left; reflexivity]]. }
      destruct C1' as (L3 & C1'). split; [lra|]. destruct C1' as [ -> | [ -> Lt ] ].
      + destruct L2 as [ -> | (k' & Hk' & Q1 & Q2)]; [left; reflexivity|]. right. exists k'. split; [right; exact Hk'|]. auto.
      + destruct L2 as [ -> | (k' & Hk' & Q1 & Q2)].
        * right. exists k. split; [left; reflexivity|]. auto.
        * right. exists k'. split; [right; exact Hk'|]. cbn in Q1, Q2. split; [exact Q1|]. cbn. lra.
  Qed.
  (** every pole counts where it is the first one to lower the cell *)
  Definition complete_pole (rad : R) (h : hazard) (acc : grid * bfill) (k : rcircle) : Prop :=
    forall r, hpg_register_pole rad h acc k = Ok r -> all_cells (fun c => fst (c_uni c) <= gap k (c_cen c)) (fst r).

  Lemma bf_new_ok : forall (g : grid) bx, grid_wf g -> y_min bx <= y_max bx -> x_min bx <= x_max bx ->
    exists b, bf_new g bx = Ok b /\ length (bf_state b) = (n_rows g * n_cols g)%nat.
  Proof.
    intros g bx [Sr Sc R0 C0 Ln] Hy Hx. unfold bf_new.
    destruct (range_ok BSok M (g_rows g) _ _ Sr R0 Hy) as (r0 & r1 & Er & Rl & Ru & _).
    destruct (range_ok BSok M (g_cols g) _ _ Sc C0 Hx) as (c0 & c1 & Ec & Cl & Cu & _).
    assert (Er' : range_in (g_rows g) (y_min bx) (y_max bx) = Ok (r0, r1)) by exact Er.
    assert (Ec' : range_in (g_cols g) (x_min bx) (x_max bx) = Ok (c0, c1)) by exact Ec. rewrite Er', Ec'. cbn [rbind].
    destruct (fill_correct g (fun _ => Exterior) (n_rows g * n_cols g)%nat (r0, r1) (c0, c1)) as (b1 & order & b2 & E1 & _); [unfold n_rows, n_cols; lia|unfold n_rows; cbn [fst snd]; lia|unfold n_cols; cbn [fst snd]; lia|].
    exists b1. split; [exact E1|]. unfold fill_start, bf_init_queue in E1. cbn [bf_rows bf_cols] in E1.
    destruct (Nat.leb r0 r1 && Nat.leb c0 c1)%bool; [|discriminate].
    apply rbind_ok in E1 as (m & Em & E1). apply rbind_ok in E1 as (st & Es & E1). injection E1 as <-. cbn [bf_state].
    unfold cs_update in Es. apply rbind_ok in Es as (s & _ & Es). apply rbind_ok in Es as (s' & _ & Es). injection Es as <-.
    rewrite vset_length. cbn [bf_state]. rewrite repeat_length. reflexivity.
  Qed.

  Definition box_ok (b : rect R) : Prop := x_min b <= x_max b /\ y_min b <= y_max b.
  Definition hset (g : hpg R D) (gr : grid) : hpg R D := Hpg (hg_bbox g) gr (hg_rad g) (hg_unc g).

  Lemma hpg_register_grid : forall (g : hpg R D) (h : hazard), grid_wf (hg_grid g) -> 0 <= hg_rad g ->
    ent_position (h_ent h) = Interior -> probed (a_obj (h_shape h)) -> box_ok (p_bbox (a_obj (h_shape h))) ->
    exists gr, hpg_register g h = Ok (hset g gr) /\ same_grid (hg_grid g) gr /\
      (forall i c c', cell_at (hg_grid g) i = Some c -> cell_at gr i = Some c' ->
         fst (c_uni c') <= fst (c_uni c) /\
         (c' = c \/ exists k, In k (poles_of (a_obj (h_shape h))) /\ c' = set_uni c (gap k (c_cen c), h_ent h) /\ gap k (c_cen c) < fst (c_uni c))).
  Proof.
    intros g h W Hr P Pr [Bx By]. destruct Pr as (s & Es & Ne & Rk & _). unfold hpg_register, poles_of. rewrite Es. cbn [expect rbind].
    destruct (bf_new_ok (hg_grid g) _ W By Bx) as (b & Eb & Lb). rewrite Eb. cbn [rbind].
    destruct (register_poles_grid (hg_rad g) h (s_poles s) (hg_grid g) b W Lb P Rk Hr) as (gr & b' & E & Sg & L). rewrite E. cbn [rbind].
    exists gr. split; [reflexivity|]. split; [exact Sg|exact L].
  Qed.

  (** operations on all cells *)
  Lemma rmapM_at : forall {A B} (f : A -> res B) l l', rmapM f l = Ok l' -> length l' = length l /\
    forall i x, nth_error l i = Some x -> exists y, f x = Ok y /\ nth_error l' i = Some y.
  Proof.
    intros A B f l. induction l as [|x l IH]; intros l' H; cbn [rmapM] in H.
    - injection H as <-. split; [reflexivity|]. intros [|i] y E; discriminate.
    - apply rbind_ok in H as (y & Ey & H). apply rbind_ok in H as (ys & Eys & H). injection H as <-.
      destruct (IH ys Eys) as (L & N). split; [cbn; congruence|]. intros [|i] z E; cbn in E |- *.
      + injection E as <-. eauto.
      + apply N. exact E.
  Qed.
  Lemma on_cells_ok : forall (f : cell -> res cell) (g : grid) (P : cell -> cell -> Prop),
    (forall i c, cell_at g i = Some c -> exists c', f c = Ok c' /\ P c c' /\ same_frame c c') ->
    exists g', on_cells f g = Ok g' /\ same_grid g g' /\
      forall i c', cell_at g' i = Some c' -> exists c, cell_at g i = Some c /\ P c c'.
  Proof.
    intros f g P H. unfold on_cells.
    destruct (rmapM_inv (fun o => match o with Some c => c' <- f c ;; Ok (Some c') | None => Ok None end)
      (fun o o' => match o, o' with Some c, Some c' => P c c' /\ same_frame c c' | None, None => True | _, _ => False end) (g_cells g)) as (l & E & F2).
    { intros o Ho. apply In_nth_error in Ho as (i & Hi). destruct o as [c|]; [|exists None; auto].
      destruct (H i c) as (c' & Ec & Pc & Sc); [unfold cell_at; rewrite Hi; reflexivity|]. rewrite Ec. cbn [rbind]. exists (Some c'). auto. }
    change (rmapM _ (g_cells g)) with (rmapM (fun o => match o with Some c => c' <- f c ;; Ok (Some c') | None => Ok None end) (g_cells g)).
    rewrite E. cbn [rbind]. eexists. split; [reflexivity|].
    assert (At : forall i, match cell_at g i, cell_at (Grid l (g_rows g) (g_cols g)) i with
       Some c, Some c' => P c c' /\ same_frame c c' | None, None => True | _, _ => False end).
    { clear E H. unfold cell_at. cbn [g_cells]. induction F2 as [|o o' l1 l2 Ho F2 IH]; intros [|i]; cbn; auto; (exact Ho || apply IH). }
    split.
    - split; [reflexivity|]. split; [reflexivity|]. split; [cbn [g_cells]; symmetry; clear -F2; induction F2; simpl; congruence|].
      intros i. specialize (At i). destruct (cell_at g i), (cell_at _ i); try contradiction; auto. apply At.
    - intros i c' Ec'. specialize (At i). rewrite Ec' in At. destruct (cell_at g i) as [c|]; [|contradiction]. exists c. split; [reflexivity|apply At].
  Qed.
End Reg.
