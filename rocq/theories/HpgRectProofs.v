(** Building the proximity grid: bins that fill their square box, and bins that are too thin. *)
From Coq Require Import List Bool Arith Lia Permutation Sorted.
From Verif Require Import Base Num GeoModel HazardModel QTModel TransfModel HpgModel CdeModel BaseProofs CdeSpec CdeOpsProofs CdeHistProofs GeoSpec ParityProofs
  GeoPrimProofs PlaceSpec HpgSpec HpgGridProofs HpgFillProofs HpgCellProofs HpgRegProofs HpgHistProofs HpgGenProofs HpgThmProofs HpgFullProofs HpgTidyProofs.
From Coq Require Import Reals Lra.
From Verif Require Import GeoModel HazardModel QTModel TransfModel HpgModel CdeModel CdeSpec GeoSpec PlaceSpec HpgSpec.
Import ListNotations.
Local Open Scope R_scope.

Section Rect.
  Context {D : Type} {ED : EqD D} {BS : BSearch}.
  Hypothesis BSok : bsearch_ok BS.
  Variable M : R.
  #[local] Instance NMq : Num R := RNumT Reqb M.
  Local Notation cell := (cell R D).
  Local Notation hazard := (hazard R D).
  Local Notation fact := (CdeSpec.fact R D).
  Local Notation grid := (grid R cell).
  Local Notation static_hazard := (@HpgSpec.static_hazard D).

  (** *** the cells are built without panic *)
  Lemma cell_new_total : forall r (sts : list hazard), Forall static_hazard sts -> exists c, cell_new r sts = Ok c.
  Proof.
    intros r sts H. unfold cell_new. set (cen := r_centroid r).
    assert (K : forall l acc, Forall static_hazard l -> length (snd acc) = N_QUALITIES -> exists acc', rfold (cell_static_step cen) l acc = Ok acc').
    { clear. induction l as [|h l IH]; intros acc Hl L; cbn [rfold]; [eauto|]. inversion Hl as [|? ? (So & Ne & En) Hl']; subst.
      destruct acc as [st qz]. cbn [snd] in L. unfold cell_static_step at 1.
      destruct (prox_ok (fact_of h) cen So Ne) as (pos & d & E & _).
      assert (E' : p_dist_border (a_obj (h_shape h)) cen = Ok (pos, d)) by exact E. rewrite E'. cbn [rbind].
      destruct (h_ent h) as [i0 d0| |i0|q i0]; [contradiction| | |]; cbn [rbind]; try (apply IH; [exact Hl'|exact L]).
      destruct (nth_error qz q) as [cur|] eqn:Eq; [|apply nth_error_None in Eq; lia]. cbn [expect rbind]. apply IH; [exact Hl'|]. cbn [snd]. rewrite vset_length. exact L. }
    destruct (K sts ((fMAX, BinExterior), repeat fMAX N_QUALITIES) H) as ([st qz] & E); [cbn [snd]; apply repeat_length|].
    rewrite E. cbn [rbind]. eauto.
  Qed.
  Lemma cell_new_cen : forall r (sts : list hazard) c, cell_new r sts = Ok c -> c_cen c = r_centroid r.
  Proof. intros r sts c E. unfold cell_new in E. apply rbind_ok in E as ([s q] & _ & E). injection E as <-. reflexivity. Qed.

  Lemma hpg_new_total : forall bb (sts : list hazard) n rects, Forall static_hazard sts -> n <> 0%nat -> proper bb ->
    generate bb (filter (fun h => ent_universal (h_ent h)) sts) n = Ok rects -> rects <> [] -> exists g, hpg_new bb sts n = Ok g.
  Proof.
    intros bb sts n rects St Nn [Px Py] E Ne. unfold hpg_new. destruct n as [|n]; [congruence|]. rewrite E. cbn [rbind].
    destruct rects as [|r rects]; [congruence|]. cbn [hd_error expect rbind].
    set (f := fun r0 : rect R => c <- cell_new r0 sts ;; Ok (c, c_cen c)).
    assert (K : forall l, exists els, rmapM f l = Ok els /\ map snd els = map r_centroid l).
    { clear -St. induction l as [|x l (els & E & Em)]; [exists []; split; reflexivity|]. cbn [rmapM]. unfold f at 1.
      destruct (cell_new_total x sts St) as (c & Ec). rewrite Ec. cbn [rbind]. rewrite E. cbn [rbind]. eexists. split; [reflexivity|].
      cbn [map snd]. rewrite Em, (cell_new_cen _ _ _ Ec). reflexivity. }
    destruct (K (r :: rects)) as (els & Eels & Em). rewrite Eels. cbn [rbind].
    unfold generate in E. destruct (flt f0 (r_area bb)) eqn:Ea; [|discriminate]. apply gen_loop_ok in E as (cf & E).
    apply gen_attempt_ok in E as (Dz & Hr & ND & Tot). set (dim := gen_dim bb (S n) cf) in *.
    assert (NDc : NoDup (map snd els)).
    { rewrite Em. assert (Inj : forall a b, In a (r :: rects) -> In b (r :: rects) -> r_centroid a = r_centroid b -> a = b).
      { intros a b Ha Hb Q. apply Hr in Ha as (i & j & _ & _ & -> & _). apply Hr in Hb as (i' & j' & _ & _ & -> & _).
        assert (Q' : r_centroid (square bb dim i j) = r_centroid (square bb dim i' j')) by exact Q. rewrite !(square_centroid M) in Q'. injection Q' as Q1 Q2.
        assert (i = i') as -> by (apply INR_eq; apply Rmult_eq_reg_l with dim; [lra|exact Dz]). assert (j = j') as -> by (apply INR_eq; apply Rmult_eq_reg_l with dim; [lra|exact Dz]). reflexivity. }
      clear -Inj ND. revert Inj ND. generalize (r :: rects) as l. induction l as [|x l IH]; intros Inj ND; cbn [map]; [constructor|]. inversion ND; subst. constructor.
      - intros K. apply in_map_iff in K as (y & Q & Hy). apply Inj in Q; [subst y; contradiction|right; exact Hy|left; reflexivity].
      - apply IH; [|assumption]. intros a b Ha Hb. apply Inj; right; assumption. }
    destruct (grid_new_ok BSok M els NDc) as (gr & Egr & _). assert (Egr' : grid_new els = Ok gr) by exact Egr. rewrite Egr'. cbn [rbind]. eauto.
  Qed.

  (** *** distance to the universal hazards *)
  Lemma dist_total : forall p (hs : list hazard), Forall static_hazard hs -> hs <> [] ->
    exists d, distance_to_hazard p hs = Ok d /\ exists h x, In h hs /\
      (d = x /\ 0 <= x \/ d = - x /\ forall q, edist p q <= x -> blocked (fact_of h) q).
  Proof.
    intros p hs St Ne. unfold distance_to_hazard.
    set (f := fun h : hazard => '(pos, d) <- p_dist_border (a_obj (h_shape h)) p ;; Ok (if geopos_eqb pos (ent_position (h_ent h)) then fneg d else d)).
    destruct (rmapM_inv f (fun h d => exists x, (d = x /\ 0 <= x \/ d = - x /\ forall q, edist p q <= x -> blocked (fact_of h) q)) hs) as (ds & E & F2).
    { intros h Hh. rewrite Forall_forall in St. destruct (St h Hh) as (So & Np & _). destruct (prox_ok (fact_of h) p So Np) as (pos & d & E & D0 & _ & Bl).
      assert (E' : p_dist_border (a_obj (h_shape h)) p = Ok (pos, d)) by exact E. unfold f. rewrite E'. cbn [rbind]. eexists. split; [reflexivity|]. exists d.
      destruct (geopos_eqb pos (ent_position (h_ent h))) eqn:Q; [right|left]; [|auto]. split; [reflexivity|]. apply Bl. exact Q. }
    fold f. rewrite E. cbn [rbind]. eexists. split; [reflexivity|].
    assert (Nd : ds <> []) by (destruct F2; congruence).
    destruct (fmin_list_ok M ds Nd) as (m & Em & Im & _). assert (Em' : fmin_list ds = Some m) by exact Em. rewrite Em'.
    clear -F2 Im. induction F2 as [|h d hs ds (x & Hx) F2 IH]; [destruct Im|]. destruct Im as [<-|Im].
    - exists h, x. split; [left; reflexivity|exact Hx].
    - destruct (IH Im) as (h' & x' & A & B). exists h', x'. split; [right; exact A|exact B].
  Qed.

  (** *** bins that fill the box *)
  (** a square that meets the open box has an interior point in it *)
  Lemma square_meets : forall bb dim i j, proper bb -> 0 < dim -> INR i < r_width bb / dim -> INR j < r_height bb / dim ->
    exists p, open_box bb p /\ x_min (square bb dim i j) < px p < x_max (square bb dim i j) /\ y_min (square bb dim i j) < py p < y_max (square bb dim i j).
  Proof.
    intros bb dim i j [Px Py] Hd Hi Hj.
    assert (K : forall a b n, a < b -> INR n < (b - a) / dim -> exists x, a < x < b /\ a + dim * INR n < x < a + dim * INR n + dim).
    { intros a b n Hab Hn. set (w := (b - a) / dim) in *. assert (Ew : w * dim = b - a) by (unfold w, Rdiv; rewrite Rmult_assoc, Rinv_l by lra; lra).
      exists (a + dim * (INR n + Rmin 1 (w - INR n) / 2)). pose proof (pos_INR n). unfold Rmin. destruct (Rle_dec 1 (w - INR n)) as [L|L]; split; split; nra. }
    destruct (K _ _ i Px Hi) as (x & X1 & X2). destruct (K _ _ j Py Hj) as (y & Y1 & Y2).
    exists (Pt x y). unfold open_box, square. cbn [px py x_min x_max y_min y_max]. auto.
  Qed.
  Lemma in_square_dist : forall bb dim i j p, 0 < dim -> x_min (square bb dim i j) < px p < x_max (square bb dim i j) -> y_min (square bb dim i j) < py p < y_max (square bb dim i j) ->
    edist (r_centroid (square bb dim i j)) p < half_diag dim.
  Proof.
    intros bb dim i j p Hd Hx Hy. change (r_centroid (square bb dim i j)) with (@r_centroid R (NMg M) (square bb dim i j)). rewrite (square_centroid M).
    unfold square in Hx, Hy. cbn [x_min x_max y_min y_max] in Hx, Hy. destruct (half_diag_sq dim Hd) as (H0 & H2).
    destruct (Rlt_le_dec (edist (Pt (x_min bb + dim * (INR i + / 2)) (y_min bb + dim * (INR j + / 2))) p) (half_diag dim)) as [L|L]; [exact L|]. exfalso.
    set (e := edist _ p) in *. assert (Ee : e * e = (x_min bb + dim * (INR i + / 2) - px p) ^ 2 + (y_min bb + dim * (INR j + / 2) - py p) ^ 2) by (unfold e; rewrite edist_sq; reflexivity).
    set (u := x_min bb + dim * (INR i + / 2) - px p) in *. set (v := y_min bb + dim * (INR j + / 2) - py p) in *.
    assert (U : - (dim / 2) < u < dim / 2) by (unfold u; lra). assert (V : - (dim / 2) < v < dim / 2) by (unfold v; lra).
    assert (u ^ 2 < dim / 2 * (dim / 2)) by nra. assert (v ^ 2 < dim / 2 * (dim / 2)) by nra. nra.
  Qed.
  Lemma clear_kept : forall bb (hs : list hazard) dim i j, proper bb -> Forall static_hazard hs -> hs <> [] -> clear_box bb hs -> 0 < dim ->
    INR i < r_width bb / dim -> INR j < r_height bb / dim -> kept M bb hs dim i j.
  Proof.
    intros bb hs dim i j Pb St Ne Cl Hd Hi Hj. destruct (square_meets bb dim i j Pb Hd Hi Hj) as (p & Op & Ip & Jp).
    pose proof (in_square_dist bb dim i j p Hd Ip Jp) as Dp.
    destruct (dist_total (r_centroid (square bb dim i j)) hs St Ne) as (d & E & h & x & Hh & [(-> & X0)|(-> & Bl)]).
    - exists x. split; [exact E|]. destruct (half_diag_sq dim Hd). lra.
    - exists (- x). split; [exact E|]. destruct (Rlt_le_dec x (half_diag dim)) as [L|L]; [lra|]. exfalso. apply (Cl h p Hh Op). apply Bl. lra.
  Qed.
  Lemma clear_covered : forall bb (sts : list hazard) dim g, proper bb -> clear_box bb (filter (fun h => ent_universal (h_ent h)) sts) ->
    fresh M bb sts dim g -> covered bb (hg_grid g).
  Proof.
    intros bb sts dim g Pb Cl F p (Ix & Iy). pose proof Pb as [Px Py].
    destruct (covering_index (r_width bb) dim (px p - x_min bb) (fr_dim _ _ _ _ _ F)) as (i & Hi & Li); [unfold r_width; cbn [fsub NMq RNumT]; lra|unfold r_width; cbn [fsub NMq RNumT]; lra|].
    destruct (covering_index (r_height bb) dim (py p - y_min bb) (fr_dim _ _ _ _ _ F)) as (j & Hj & Lj); [unfold r_height; cbn [fsub NMq RNumT]; lra|unfold r_height; cbn [fsub NMq RNumT]; lra|].
    assert (Ip : in_rect (square bb dim i j) p) by (split; unfold square; cbn [x_min x_max y_min y_max]; lra).
    destruct (fr_square _ _ _ _ _ F i j Hi Hj) as [(c & Hc & Bc)|K]; [exists c; rewrite Bc; auto|]. exfalso.
    destruct (square_meets bb dim i j Pb (fr_dim _ _ _ _ _ F) Hi Hj) as (q & Oq & Iq & Jq).
    destruct (K q) as (h & Hh & Uh & Bh); [split; split; lra|]. apply (Cl h q); [apply filter_In; split; assumption|exact Oq|exact Bh].
  Qed.

  (** *** one attempt, all cells kept *)
  Lemma attempt_full : forall bb (hs : list hazard) n cf, let dim := gen_dim bb n cf in 0 < dim ->
    (forall i j, INR i < r_width bb / dim -> INR j < r_height bb / dim -> kept M bb hs dim i j) ->
    exists out, gen_attempt bb hs n cf = Ok out /\ length out = (Rceil_nat (r_width bb / dim) * Rceil_nat (r_height bb / dim))%nat.
  Proof.
    intros bb hs n cf dim Hd K. unfold gen_attempt. cbv zeta. fold dim. cbn [feq f0 NMq RNumT]. unfold Reqb. destruct (Req_EM_T dim 0) as [Z|Z]; [lra|].
    set (nx := Rceil_nat (r_width bb / dim)). set (ny := Rceil_nat (r_height bb / dim)).
    assert (Row : forall i js acc, (i < nx)%nat -> (forall j, In j js -> (j < ny)%nat) ->
      rfold (fun acc j => d <- distance_to_hazard (r_centroid (square bb dim i j)) hs ;; Ok (if Rltb 0 (d + half_diag dim) then acc ++ [square bb dim i j] else acc)) js acc = Ok (acc ++ map (square bb dim i) js)).
    { intros i js. induction js as [|j js IH]; intros acc Hi Hj; cbn [rfold map]; [rewrite app_nil_r; reflexivity|].
      destruct (K i j) as (d & Ed & Ld); [apply ceil_nat; exact Hi|apply ceil_nat; apply Hj; left; reflexivity|].
      assert (Ed' : distance_to_hazard (r_centroid (square bb dim i j)) hs = Ok d) by exact Ed. rewrite Ed'. cbn [rbind].
      rewrite (proj2 (Rltb_spec 0 (d + half_diag dim)) Ld). rewrite IH; [rewrite <- app_assoc; reflexivity|exact Hi|]. intros j' Hj'. apply Hj. right. exact Hj'. }
    assert (Col : forall is_ acc, (forall i, In i is_ -> (i < nx)%nat) -> exists out,
      rfold (fun acc i => rfold (fun acc j => d <- distance_to_hazard (r_centroid (square bb dim i j)) hs ;; Ok (if Rltb 0 (d + half_diag dim) then acc ++ [square bb dim i j] else acc)) (seq 0 ny) acc) is_ acc = Ok out /\
      length out = (length acc + length is_ * ny)%nat).
    { intros is_. induction is_ as [|i is_ IH]; intros acc Hi; cbn [rfold]; [exists acc; split; [reflexivity|cbn; lia]|].
      rewrite Row; [|apply Hi; left; reflexivity|intros j Hj; apply in_seq in Hj; lia]. cbn [rbind].
      destruct (IH (acc ++ map (square bb dim i) (seq 0 ny))) as (out & E & L); [intros i' Hi'; apply Hi; right; exact Hi'|].
      exists out. split; [exact E|]. rewrite L, app_length, map_length, seq_length. cbn [length]. lia. }
    destruct (Col (seq 0 nx) []) as (out & E & L); [intros i Hi; apply in_seq in Hi; lia|].
    exists out. split; [exact E|]. rewrite L, seq_length. reflexivity.
  Qed.

  (** *** square boxes: the search for the number of cells ends well *)
  Lemma ceil_ge : forall x, x <= INR (Rceil_nat x).
  Proof. intros x. destruct (Rlt_le_dec (INR (Rceil_nat x)) x) as [L|L]; [|exact L]. apply ceil_nat in L. lia. Qed.
  Lemma square_gen : forall bb (hs : list hazard) n, proper bb -> r_width bb = r_height bb -> Forall static_hazard hs -> hs <> [] -> clear_box bb hs -> n <> 0%nat ->
    exists out, generate bb hs n = Ok out /\ out <> [].
  Proof.
    intros bb hs n Pb Sq St Ne Cl Nn. pose proof Pb as [Px Py]. set (w := r_width bb). assert (W0 : 0 < w) by (unfold w, r_width; cbn [fsub NMq RNumT]; lra).
    assert (N1 : 1 <= INR n) by (change 1 with (INR 1); apply le_INR; lia).
    assert (Gd : forall cf, gen_dim bb n cf = w / sqrt (INR n) * cf).
    { intros cf. unfold gen_dim, r_area, fofN. cbn [fsqrt fmul fdiv NMq RNumT].
      change (sqrt (r_width bb * r_height bb / INR n) * cf = w / sqrt (INR n) * cf). f_equal. rewrite <- Sq. fold w.
      rewrite sqrt_div_alt by lra. rewrite sqrt_square by lra. reflexivity. }
    assert (Sn : 0 < sqrt (INR n)) by (apply sqrt_lt_R0; lra).
    assert (At : forall cf, 0 < cf -> exists out, gen_attempt bb hs n cf = Ok out /\ out <> [] /\ ((length out < n)%nat -> 1 < cf)).
    { intros cf Hc. assert (Hd : 0 < gen_dim bb n cf).
      { rewrite Gd. apply Rmult_lt_0_compat; [|exact Hc]. apply Rmult_lt_0_compat; [exact W0|apply Rinv_0_lt_compat; exact Sn]. }
      destruct (attempt_full bb hs n cf Hd) as (out & E & L).
      { intros i j Hi Hj. apply clear_kept; assumption. }
      exists out. split; [exact E|]. set (dim := gen_dim bb n cf) in *.
      assert (Ew : r_width bb / dim = sqrt (INR n) / cf). { unfold dim. rewrite Gd. fold w. field. split; [lra|]. split; lra. }
      rewrite <- Sq, Ew in L.
      assert (P0 : 0 < sqrt (INR n) / cf) by (apply Rmult_lt_0_compat; [exact Sn|apply Rinv_0_lt_compat; exact Hc]).
      set (m := Rceil_nat (sqrt (INR n) / cf)) in *. assert (M0 : (0 < m)%nat) by (apply ceil_nat; exact P0).
      split; [intros Z; rewrite Z in L; cbn in L; nia|]. intros Lt. destruct (Rlt_le_dec 1 cf) as [Q|Q]; [exact Q|]. exfalso.
      pose proof (ceil_ge (sqrt (INR n) / cf)) as G. fold m in G.
      assert (G2 : sqrt (INR n) <= INR m).
      { eapply Rle_trans; [|exact G]. assert (I1 : 1 <= / cf) by (rewrite <- Rinv_1; apply Rinv_le_contravar; lra). unfold Rdiv. nra. }
      assert (G3 : INR n <= INR m * INR m) by (rewrite <- (sqrt_sqrt (INR n)) by lra; nra). rewrite <- mult_INR in G3. apply INR_le in G3. lia. }
    unfold generate. assert (Ar : flt f0 (r_area bb) = true).
    { unfold r_area. cbn [flt f0 fmul NMq RNumT]. apply Rltb_spec. change (0 < r_width bb * r_height bb). rewrite <- Sq. fold w. nra. }
    rewrite Ar.
    assert (Lp : forall left cf step prev, 9 / 10 <= cf -> 0 <= step <= 1 / 10 -> exists out, gen_loop left bb hs n cf step prev = Ok out /\ out <> []).
    { induction left as [|left IH]; intros cf step prev Hc Hs; cbn [gen_loop]; destruct (At cf ltac:(lra)) as (out & E & No & Lt); rewrite E; cbn [rbind]; [eauto|].
      set (step' := match prev with Some p => if cmp_eqb p (length out ?= n)%nat then step else fdiv step f2 | None => fdiv step f2 end).
      assert (S' : 0 <= step' <= 1 / 10).
      { assert (Hf : 0 <= fdiv step f2 <= 1 / 10) by (unfold f2; cbn [fdiv fadd f1 NMq RNumT]; lra).
        unfold step'. destruct prev as [p|]; [destruct (cmp_eqb p _)|]; assumption. }
      destruct (Nat.compare_spec (length out) n) as [Q|Q|Q].
      - eauto.
      - apply IH; [|exact S']. specialize (Lt Q). cbn [fsub NMq RNumT]. lra.
      - apply IH; [|exact S']. cbn [fadd NMq RNumT]. lra. }
    apply Lp; [cbn [f1 NMq RNumT]; lra|]. unfold fofN. cbn [fdiv f1 NMq RNumT]. change (0 <= 1 / INR 10 <= 1 / 10). assert (INR 10 = 10) as -> by (cbn; lra). lra.
  Qed.

  Theorem square_grid : forall bb (sts : list hazard) n, proper bb -> r_width bb = r_height bb -> Forall static_hazard sts ->
    (exists h, In h sts /\ ent_universal (h_ent h) = true) -> clear_box bb (filter (fun h => ent_universal (h_ent h)) sts) -> n <> 0%nat ->
    exists g, hpg_new bb sts n = Ok g /\ covered bb (hg_grid g).
  Proof.
    intros bb sts n Pb Sq St (h0 & Hh0 & U0) Cl Nn. set (hs := filter (fun h => ent_universal (h_ent h)) sts) in *.
    assert (Sh : Forall static_hazard hs) by (apply Forall_forall; intros h Hh; apply filter_In in Hh; rewrite Forall_forall in St; apply St, Hh).
    assert (Ne : hs <> []) by (intros Z; assert (K : In h0 hs) by (apply filter_In; auto); rewrite Z in K; destruct K).
    destruct (square_gen bb hs n Pb Sq Sh Ne Cl Nn) as (out & E & No).
    destruct (hpg_new_total bb sts n out St Nn Pb E No) as (g & Eg). exists g. split; [exact Eg|].
    destruct (hpg_new_ok BSok M bb sts n g Pb) as (dim & F); [|exact Eg|].
    - eapply Forall_impl; [|exact St]. intros h (So & _). exact So.
    - eapply clear_covered; eassumption.
  Qed.

  Lemma free_covered : forall bb (sts : list hazard) n g, proper bb -> sound_statics sts -> hpg_new bb sts n = Ok g ->
    (forall p, in_rect bb p -> (exists c, In (Some c) (g_cells (hg_grid g)) /\ in_rect (c_bbox' c) p) \/
       exists h, In h sts /\ ent_universal (h_ent h) = true /\ blocked (fact_of h) p) /\
    exists dim, 0 < dim /\ every_cell (fun c => x_max (c_bbox' c) - x_min (c_bbox' c) = dim /\ y_max (c_bbox' c) - y_min (c_bbox' c) = dim) (hg_grid g).
  Proof.
    intros bb sts n g Pb So E. destruct (hpg_new_ok BSok M bb sts n g Pb So E) as (dim & F). split.
    - intros p Hp. exact (covers M bb sts dim g p Pb F Hp).
    - exists dim. split; [apply F|]. apply every_all. intros i c Hc. destruct (fr_cells _ _ _ _ _ F i c Hc) as (_ & _ & _ & i' & j' & -> & _).
      unfold square. cbn [x_min x_max y_min y_max]. lra.
  Qed.
End Rect.
