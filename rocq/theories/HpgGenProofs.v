(** The cells a new proximity grid consists of. *)
From Coq Require Import List Bool Arith Lia ZArith Permutation Sorted.
From Verif Require Import Base Num GeoModel HazardModel QTModel TransfModel HpgModel CdeModel BaseProofs CdeSpec GeoSpec ParityProofs
  GeoPrimProofs PlaceSpec HpgSpec HpgGridProofs HpgFillProofs HpgCellProofs HpgRegProofs HpgHistProofs.
From Coq Require Import Reals Lra.
From Verif Require Import GeoModel HazardModel QTModel TransfModel HpgModel CdeModel CdeSpec GeoSpec PlaceSpec HpgSpec.
Import ListNotations.
Local Open Scope R_scope.

Lemma ceil_nat : forall x n, (n < Rceil_nat x)%nat <-> INR n < x.
Proof.
  intros x n. unfold Rceil_nat. destruct (archimed (- x)) as [A B]. rewrite INR_IZR_INZ. split; intros H.
  - assert (K : (Z.of_nat n < 1 - up (- x))%Z) by lia. assert (K2 : (Z.of_nat n <= - up (- x))%Z) by lia. apply IZR_le in K2. rewrite opp_IZR in K2. lra.
  - assert (K : (Z.of_nat n < 1 - up (- x))%Z); [|lia]. apply lt_IZR. rewrite minus_IZR. lra.
Qed.

Lemma NoDup_app3 : forall {A} (l l' : list A), NoDup l -> NoDup l' -> (forall x, In x l -> ~ In x l') -> NoDup (l ++ l').
Proof.
  intros A l l' N N' H. induction N as [|x l Hx N IH]; [exact N'|]. cbn. constructor.
  - rewrite in_app_iff. intros [K|K]; [contradiction|]. apply (H x (or_introl eq_refl) K).
  - apply IH. intros y Hy. apply H. right. exact Hy.
Qed.
Section Gen.
  Context {D : Type} {ED : EqD D} {BS : BSearch}.
  Hypothesis BSok : bsearch_ok BS.
  Variable M : R.
  #[local] Instance NMg : Num R := RNumT Reqb M.
  Local Notation cell := (cell R D).
  Local Notation hazard := (hazard R D).
  Local Notation fact := (CdeSpec.fact R D).
  Local Notation grid := (grid R cell).

  (** the square in column [i] and row [j] *)
  Definition square (bb : rect R) (dim : R) (i j : nat) : rect R :=
    Rc (x_min bb + dim * INR i) (y_min bb + dim * INR j) (x_min bb + dim * INR i + dim) (y_min bb + dim * INR j + dim).
  Definition half_diag (dim : R) : R := sqrt (2 * (dim / 2 * (dim / 2))).
  Definition kept (bb : rect R) (hs : list hazard) (dim : R) (i j : nat) : Prop :=
    exists d, distance_to_hazard (r_centroid (square bb dim i j)) hs = Ok d /\ 0 < d + half_diag dim.

  Lemma collect_rows : forall bb hs dim i l acc out,
    rfold (fun acc j => d <- distance_to_hazard (r_centroid (square bb dim i j)) hs ;;
             Ok (if Rltb 0 (d + half_diag dim) then acc ++ [square bb dim i j] else acc)) l acc = Ok out ->
    exists js, out = acc ++ map (square bb dim i) js /\ (forall j, In j js <-> In j l /\ kept bb hs dim i j) /\ (NoDup l -> NoDup js) /\
      (forall j, In j l -> exists d, distance_to_hazard (r_centroid (square bb dim i j)) hs = Ok d).
  Proof.
    intros bb hs dim i l. induction l as [|j l IH]; intros acc out H; cbn [rfold] in H.
    - injection H as <-. exists []. rewrite app_nil_r. split; [reflexivity|]. split; [|split; [auto|intros j []]]. intros j. simpl. tauto.
    - apply rbind_ok in H as (a1 & E & H). apply rbind_ok in E as (d & Ed & E). injection E as <-.
      apply IH in H as (js & -> & Hj & ND & Tot).
      assert (Tot' : forall j', In j' (j :: l) -> exists d, distance_to_hazard (r_centroid (square bb dim i j')) hs = Ok d) by (intros j' [<-|H']; [exists d; exact Ed|apply Tot; exact H']).
      unfold Rltb in *. destruct (Rlt_dec 0 (d + half_diag dim)) as [L|L].
      + exists (j :: js). rewrite <- app_assoc. split; [reflexivity|]. split.
        * intros j'. simpl. rewrite Hj. split; [intros [<-|[A B]]; [split; [left; reflexivity|exists d; auto]|auto]|]. intros [[->|A] B]; auto.
        * split; [|exact Tot']. intros N. inversion N; subst. constructor; [|auto]. rewrite Hj. tauto.
      + exists js. split; [reflexivity|]. split; [|split; [intros N; inversion N; auto|exact Tot']]. intros j'. rewrite Hj. simpl. split; [tauto|].
        intros [[<-|A] B]; [|tauto]. destruct B as (d' & Ed' & L'). rewrite Ed in Ed'. injection Ed' as <-. contradiction.
  Qed.

  Lemma gen_attempt_ok : forall bb hs target cf out, gen_attempt bb hs target cf = Ok out ->
    let dim := gen_dim bb target cf in dim <> 0 /\
    (forall r, In r out <-> exists i j, INR i < r_width bb / dim /\ INR j < r_height bb / dim /\ r = square bb dim i j /\ kept bb hs dim i j) /\ NoDup out /\
    (forall i j, INR i < r_width bb / dim -> INR j < r_height bb / dim -> exists d, distance_to_hazard (r_centroid (square bb dim i j)) hs = Ok d).
  Proof.
    intros bb hs target cf out H. unfold gen_attempt in H. set (dim := gen_dim bb target cf) in *. cbv zeta.
    cbn [feq f0 NMg RNumT] in H. unfold Reqb in H. destruct (Req_EM_T dim 0) as [Z|Z]; [discriminate|]. split; [exact Z|].
    set (nx := Rceil_nat (r_width bb / dim)). set (ny := Rceil_nat (r_height bb / dim)).
    assert (H' : rfold (fun acc i => rfold (fun acc j => d <- distance_to_hazard (r_centroid (square bb dim i j)) hs ;;
             Ok (if Rltb 0 (d + half_diag dim) then acc ++ [square bb dim i j] else acc)) (seq 0 ny) acc) (seq 0 nx) [] = Ok out) by exact H.
    clear H.
    assert (K : forall l acc, rfold (fun acc i => rfold (fun acc j => d <- distance_to_hazard (r_centroid (square bb dim i j)) hs ;;
             Ok (if Rltb 0 (d + half_diag dim) then acc ++ [square bb dim i j] else acc)) (seq 0 ny) acc) l acc = Ok out ->
       exists rs, out = acc ++ rs /\ (forall r, In r rs <-> exists i j, In i l /\ (j < ny)%nat /\ r = square bb dim i j /\ kept bb hs dim i j) /\
         (NoDup l -> NoDup rs) /\ (forall i j, In i l -> (j < ny)%nat -> exists d, distance_to_hazard (r_centroid (square bb dim i j)) hs = Ok d)).
    { clear H'. intros l. induction l as [|i l IH]; intros acc H; cbn [rfold] in H.
      - injection H as <-. exists []. rewrite app_nil_r. split; [reflexivity|]. split; [|split; [constructor|intros i j []]]. intros r. simpl. split; [tauto|]. intros (i & j & [] & _).
      - apply rbind_ok in H as (a1 & E & H). apply collect_rows in E as (js & -> & Hj & ND & Tot). apply IH in H as (rs & -> & Hr & ND' & Tot').
        exists (map (square bb dim i) js ++ rs). rewrite <- app_assoc. split; [reflexivity|]. split.
        + intros r. rewrite in_app_iff, in_map_iff, Hr. split.
          * intros [(j & <- & Hj')|(i' & j & A & B & C)]; [|exists i', j; simpl; auto]. apply Hj in Hj' as [A B]. apply in_seq in A. exists i, j. simpl. split; [auto|]. split; [lia|auto].
          * intros (i' & j & [<-|A] & B & -> & C); [left; exists j; split; [reflexivity|]; apply Hj; split; [apply in_seq; lia|exact C]|right; exists i', j; auto].
        + split; [|intros i' j [<-|Hi] Lj; [apply Tot; apply in_seq; lia|apply Tot'; assumption]].
          intros N. inversion N as [|? ? Ni N']; subst. specialize (ND (seq_NoDup _ _)). specialize (ND' N').
          assert (Inj : forall i i' j j', square bb dim i j = square bb dim i' j' -> i = i' /\ j = j').
          { intros a a' b b' Q. unfold square in Q. injection Q as Q1 Q2 _ _. split; apply INR_eq; apply Rmult_eq_reg_l with dim; try exact Z; lra. }
          apply NoDup_app3.
          * apply FinFun.Injective_map_NoDup; [|exact ND]. intros a b Q. apply Inj in Q. tauto.
          * exact ND'.
          * intros r Hr1 Hr2. apply in_map_iff in Hr1 as (j & <- & _). apply Hr in Hr2 as (i' & j' & Hi & _ & Q & _). apply Inj in Q as [<- _]. contradiction. }
    destruct (K _ _ H') as (rs & -> & Hr & ND & Tot). cbn [app]. split; [|split; [apply ND, seq_NoDup|]].
    2: { intros i j A B. apply ceil_nat in A, B. apply Tot; [apply in_seq; unfold nx; lia|exact B]. }
    intros r. rewrite Hr. split; intros (i & j & A & B & C); exists i, j.
    - apply in_seq in A. split; [apply ceil_nat; unfold nx in A; lia|]. split; [apply ceil_nat; exact B|exact C].
    - split; [apply in_seq; apply ceil_nat in A; unfold nx; lia|]. split; [apply ceil_nat in B; exact B|exact C].
  Qed.

  Lemma gen_loop_ok : forall left bb (hs : list hazard) target cf step prev out, gen_loop left bb hs target cf step prev = Ok out ->
    exists cf', gen_attempt bb hs target cf' = Ok out.
  Proof.
    induction left as [|left IH]; intros bb hs target cf step prev out H; cbn [gen_loop] in H.
    - apply rbind_ok in H as (c & E & H). injection H as <-. eauto.
    - apply rbind_ok in H as (c & E & H). destruct (Nat.compare (length c) target); [injection H as <-; eauto|eapply IH; exact H|eapply IH; exact H].
  Qed.

  (** *** a new cell *)
  Lemma dist_unique : forall S p d d', distance_to S p d -> distance_to S p d' -> d = d'.
  Proof.
    intros S p d d' [(q & Sq & Dq) L] [(q' & Sq' & Dq') L']. apply Rle_antisym; [rewrite <- Dq'; apply L; exact Sq'|rewrite <- Dq; apply L'; exact Sq].
  Qed.
  Lemma dist_border_inv : forall (h : hazard) cen pos d, sound_poly (a_obj (h_shape h)) -> p_dist_border (a_obj (h_shape h)) cen = Ok (pos, d) ->
    0 <= d /\ distance_to (blocked (fact_of h)) cen (if geopos_eqb pos (ent_position (h_ent h)) then 0 else d) /\
    (geopos_eqb pos (ent_position (h_ent h)) = true -> forall q, edist cen q <= d -> blocked (fact_of h) q).
  Proof.
    intros h cen pos d So E. assert (Ne : p_pts (a_obj (h_shape h)) <> []).
    { intros Z. unfold p_dist_border, p_sqdist_border, edge_indices, n_points in E. rewrite Z in E. discriminate. }
    destruct (prox_ok (fact_of h) cen So Ne) as (pos' & d' & E' & A & B & C).
    assert (Q : Ok (pos', d') = Ok (pos, d)) by (rewrite <- E, <- E'; reflexivity). injection Q as -> ->. auto.
  Qed.

  Lemma nearest_step : forall (P : hazard -> Prop) sts cen d h x, nearest M sts P cen d -> P h -> distance_to (blocked (fact_of h)) cen x ->
    nearest M (sts ++ [h]) P cen (Rmin d x).
  Proof.
    intros P sts cen d h x (A & B & C) Ph Dx. split; [eapply Rle_trans; [apply Rmin_l|exact A]|]. split.
    - unfold Rmin. destruct (Rle_dec d x).
      + destruct B as [B|(h' & H1 & H2)]; [left; exact B|right; exists h'; split; [apply in_or_app; auto|exact H2]].
      + right. exists h. split; [apply in_or_app; right; left; reflexivity|auto].
    - intros h' y Hh' Ph' By. apply in_app_or in Hh' as [Hh'|[<-|[]]].
      + eapply Rle_trans; [apply Rmin_l|]. eapply C; eassumption.
      + eapply Rle_trans; [apply Rmin_r|]. apply Dx. exact By.
  Qed.
  Lemma nearest_skip : forall (P : hazard -> Prop) sts cen d h, nearest M sts P cen d -> ~ P h -> nearest M (sts ++ [h]) P cen d.
  Proof.
    intros P sts cen d h (A & B & C) Ph. split; [exact A|]. split.
    - destruct B as [B|(h' & H1 & H2)]; [left; exact B|right; exists h'; split; [apply in_or_app; auto|exact H2]].
    - intros h' y Hh' Ph' By. apply in_app_or in Hh' as [Hh'|[<-|[]]]; [eapply C; eassumption|contradiction].
  Qed.
  Lemma nearest_nil : forall (P : hazard -> Prop) cen, nearest M [] P cen M.
  Proof. intros P cen. split; [lra|]. split; [left; reflexivity|]. intros h x []. Qed.

  Definition uniP (h : hazard) : Prop := ent_universal (h_ent h) = true.
  Definition qzP (q : nat) (h : hazard) : Prop := exists i, h_ent h = InferiorQualityZone q i.
  Lemma static_step_ok : forall cen st qz (h : hazard) done st' qz', sound_poly (a_obj (h_shape h)) ->
    nearest M done uniP cen (fst st) -> length qz = N_QUALITIES ->
    (forall q z, nth_error qz q = Some z -> nearest M done (qzP q) cen z) ->
    cell_static_step cen (st, qz) h = Ok (st', qz') ->
    nearest M (done ++ [h]) uniP cen (fst st') /\ length qz' = N_QUALITIES /\
    (forall q z, nth_error qz' q = Some z -> nearest M (done ++ [h]) (qzP q) cen z).
  Proof.
    intros cen st qz h done st' qz' So Nu Ln Nq E. unfold cell_static_step in E. apply rbind_ok in E as ([pos d] & Ed & E).
    destruct (dist_border_inv h cen pos d So Ed) as (_ & Dt & _). set (x := if geopos_eqb pos (ent_position (h_ent h)) then 0 else d) in *.
    change (if geopos_eqb pos (ent_position (h_ent h)) then f0 else d) with x in E.
    assert (Uni : uniP h -> nearest M (done ++ [h]) uniP cen (fst (if flt x (fst st) then (x, h_ent h) else st))).
    { intros U. replace (fst (if flt x (fst st) then (x, h_ent h) else st)) with (Rmin (fst st) x); [apply nearest_step; assumption|].
      cbn [flt NMg RNumT]. unfold Rltb, Rmin. destruct (Rlt_dec x (fst st)), (Rle_dec (fst st) x); cbn; lra. }
    assert (Skip : uniP h -> forall q z, nth_error qz q = Some z -> nearest M (done ++ [h]) (qzP q) cen z).
    { intros U q z Ez. apply nearest_skip; [apply Nq; exact Ez|]. intros (i & K). unfold uniP in U. rewrite K in U. discriminate. }
    destruct (h_ent h) as [id0 dt0| |id0|q0 i0] eqn:Eh; try discriminate.
    - injection E as <- <-. assert (U : uniP h) by (unfold uniP; rewrite Eh; reflexivity). auto.
    - injection E as <- <-. assert (U : uniP h) by (unfold uniP; rewrite Eh; reflexivity). auto.
    - apply rbind_ok in E as (cur & Ec & E). injection E as <- <-. destruct (nth_error qz q0) as [c0|] eqn:Eq; [|discriminate]. injection Ec as ->.
      split; [apply nearest_skip; [exact Nu|unfold uniP; rewrite Eh; discriminate]|]. split; [rewrite vset_length; exact Ln|].
      intros q z Ez. destruct (Nat.eq_dec q0 q) as [<-|Nq0].
      + assert (Lq : (q0 < length qz)%nat) by (apply nth_error_Some; congruence). rewrite vset_eq in Ez by exact Lq. injection Ez as <-.
        apply nearest_step; [apply Nq; exact Eq|exists i0; exact Eh|exact Dt].
      + rewrite vset_neq in Ez by exact Nq0. apply nearest_skip; [apply Nq; exact Ez|]. intros (i & K). rewrite Eh in K. congruence.
  Qed.
  Lemma cell_new_ok : forall r (sts : list hazard) c, Forall (fun h => sound_poly (a_obj (h_shape h))) sts -> cell_new r sts = Ok c ->
    x_min r <= x_max r -> y_min r <= y_max r -> static_cell M sts c /\ c_uni c = c_stat c /\ c_bbox' c = r /\ c_rad c = r_diameter r / 2 /\ c_cen c = r_centroid r.
  Proof.
    intros r sts c So E Hx Hy. unfold cell_new in E. apply rbind_ok in E as ([st qz] & Ef & E). injection E as <-.
    assert (K : forall l done a, Forall (fun h => sound_poly (a_obj (h_shape h))) l -> nearest M done uniP (r_centroid r) (fst (fst a)) -> length (snd a) = N_QUALITIES ->
       (forall q z, nth_error (snd a) q = Some z -> nearest M done (qzP q) (r_centroid r) z) ->
       rfold (cell_static_step (r_centroid r)) l a = Ok (st, qz) ->
       nearest M (done ++ l) uniP (r_centroid r) (fst st) /\ length qz = N_QUALITIES /\ (forall q z, nth_error qz q = Some z -> nearest M (done ++ l) (qzP q) (r_centroid r) z)).
    { induction l as [|h l IH]; intros done a Sl Nu Ln Nq Er; cbn [rfold] in Er.
      - injection Er as ->. rewrite app_nil_r. auto.
      - inversion Sl; subst. apply rbind_ok in Er as ([st1 qz1] & E1 & Er). destruct a as [st0 qz0]. cbn [fst snd] in *.
        destruct (static_step_ok (r_centroid r) st0 qz0 h done st1 qz1) as (A & B & C); [assumption..|].
        replace (done ++ h :: l) with ((done ++ [h]) ++ l) by (rewrite <- app_assoc; reflexivity). apply (IH (done ++ [h]) (st1, qz1)); assumption. }
    destruct (K sts [] ((M, BinExterior), repeat M N_QUALITIES) So (nearest_nil _ _) (repeat_length _ _)) as (A & B & C).
    { intros q z Ez. cbn [snd] in Ez. assert (z = M) as ->; [|apply nearest_nil].
      apply nth_error_In in Ez. apply repeat_spec in Ez. exact Ez. }
    { exact Ef. }
    cbn [app] in *. assert (Ce : r_centroid r = Pt ((x_min r + x_max r) / 2) ((y_min r + y_max r) / 2)).
    { unfold r_centroid, f2. cbn [fadd fdiv f1 NMg RNumT]. replace (1 + 1) with 2 by lra. reflexivity. }
    split; [|split; [reflexivity|split; [reflexivity|split; [|reflexivity]]]].
    2: { cbn [c_rad]. unfold f2. cbn [fadd fdiv f1 NMg RNumT]. replace (1 + 1) with 2 by lra. reflexivity. }
    split; cbn [c_cen c_bbox' c_rad c_stat c_qz]; auto.
    intros p (P1 & P2). rewrite Ce. unfold r_diameter, f2, fsq. cbn [fsqrt fadd fsub fmul fdiv f1 NMg RNumT]. replace (1 + 1) with 2 by lra.
    pose proof (sqrt_pos ((x_max r - x_min r) * (x_max r - x_min r) + (y_max r - y_min r) * (y_max r - y_min r))) as Sp.
    apply edist_le; [lra|]. cbn [px py].
    assert (Sq := sqrt_sqrt ((x_max r - x_min r) * (x_max r - x_min r) + (y_max r - y_min r) * (y_max r - y_min r)) ltac:(nra)).
    set (w := sqrt _) in *. replace (w / 2 * (w / 2)) with (w * w / 4) by field. rewrite Sq. cbn in *. nra.
  Qed.

  (** *** a new grid *)
  Lemma square_centroid : forall bb dim i j, r_centroid (square bb dim i j) = Pt (x_min bb + dim * (INR i + / 2)) (y_min bb + dim * (INR j + / 2)).
  Proof. intros bb dim i j. unfold r_centroid, square, f2. cbn [x_min x_max y_min y_max fadd fdiv f1 NMg RNumT]. f_equal; field. Qed.
  Lemma square_diameter : forall bb dim i j, 0 <= dim -> r_diameter (square bb dim i j) / 2 = half_diag dim.
  Proof.
    intros bb dim i j Hd. unfold r_diameter, square, fsq. cbn [x_min x_max y_min y_max fsqrt fadd fsub fmul NMg RNumT]. unfold half_diag.
    set (a := x_min bb + dim * INR i). set (b := y_min bb + dim * INR j).
    replace ((a + dim - a) * (a + dim - a) + (b + dim - b) * (b + dim - b)) with ((2 * (dim / 2 * (dim / 2))) * (2 * 2)) by field.
    rewrite sqrt_mult_alt by nra. rewrite sqrt_square by lra. field.
  Qed.

  (** a cell that is left out lies in a hazard *)
  Lemma not_kept : forall bb (hs : list hazard) dim i j p, Forall (fun h => sound_poly (a_obj (h_shape h))) hs -> 0 < dim -> in_rect (square bb dim i j) p ->
    (exists d, distance_to_hazard (r_centroid (square bb dim i j)) hs = Ok d) -> hs <> [] -> ~ kept bb hs dim i j -> exists h, In h hs /\ blocked (fact_of h) p.
  Proof.
    intros bb hs dim i j p So Hd Hp (d & Ed) Ne Nk. assert (L : d + half_diag dim <= 0).
    { apply Rnot_lt_le. intros L. apply Nk. exists d. auto. }
    unfold distance_to_hazard in Ed. apply rbind_ok in Ed as (ds & Eds & Ed). injection Ed as Ed.
    set (cen := r_centroid (square bb dim i j)) in *.
    assert (Nds : ds <> []).
    { intros ->. apply rmapM_at in Eds as (Le & _). destruct hs; [contradiction|discriminate]. }
    destruct (fmin_list_ok M ds Nds) as (m & Em & Im & _). 
    assert (Em' : fmin_list ds = Some m) by exact Em. rewrite Em' in Ed. subst m.
    assert (Src : exists h, In h hs /\ (' (pos, d0) <- p_dist_border (a_obj (h_shape h)) cen ;; Ok (if geopos_eqb pos (ent_position (h_ent h)) then fneg d0 else d0)) = Ok d).
    { clear -Eds Im. revert ds Eds Im. induction hs as [|h hs IH]; intros ds Eds Im; cbn [rmapM] in Eds.
      - injection Eds as <-. destruct Im.
      - apply rbind_ok in Eds as (y & Ey & Eds). apply rbind_ok in Eds as (ys & Eys & Eds). injection Eds as <-. destruct Im as [<-|Im].
        + exists h. split; [left; reflexivity|exact Ey].
        + destruct (IH ys Eys Im) as (h' & A & B). exists h'. split; [right; exact A|exact B]. }
    destruct Src as (h & Hh & Eh). exists h. split; [exact Hh|]. rewrite Forall_forall in So.
    apply rbind_ok in Eh as ([pos d0] & E0 & Eh). injection Eh as Eh.
    destruct (dist_border_inv h cen pos d0 (So h Hh) E0) as (D0 & _ & Bl).
    assert (Hh0 : 0 < half_diag dim) by (unfold half_diag; apply sqrt_lt_R0; nra).
    destruct (geopos_eqb pos (ent_position (h_ent h))) eqn:G; [|lra]. cbn [fneg NMg RNumT] in Eh.
    apply Bl; [reflexivity|]. apply Rle_trans with (half_diag dim); [|lra].
    unfold cen. rewrite square_centroid. apply edist_le; [lra|]. unfold half_diag. rewrite sqrt_sqrt by nra.
    destruct Hp as (P1 & P2). unfold square in P1, P2. cbn [x_min x_max y_min y_max px py] in *. nra.
  Qed.

  Lemma covering_index : forall w dim t, 0 < dim -> 0 < w -> 0 <= t <= w -> exists i, INR i < w / dim /\ dim * INR i <= t <= dim * INR i + dim.
  Proof.
    intros w dim t Hd Hw [T0 T1].
    assert (Dv : forall x y, x < y / dim <-> dim * x < y).
    { intros x y. split; intros H; [apply (Rmult_lt_compat_l dim) in H; [|exact Hd]; replace (dim * (y / dim)) with y in H by (field; lra); exact H|].
      apply (Rmult_lt_reg_l dim); [exact Hd|]. replace (dim * (y / dim)) with y by (field; lra). exact H. }
    destruct (Rle_lt_or_eq_dec _ _ T0) as [Tp|Tz].
    - (* the largest i with dim*i < t *)
      set (n := Rceil_nat (t / dim)). assert (N0 : (0 < n)%nat).
      { unfold n. apply ceil_nat. cbn. apply Dv. lra. }
      exists (n - 1)%nat. assert (A : INR (n - 1) < t / dim) by (apply ceil_nat; unfold n in *; lia).
      assert (B : ~ INR n < t / dim) by (intros K; apply ceil_nat in K; unfold n in K; lia). apply Dv in A.
      assert (B' : t <= dim * INR n) by (apply Rnot_lt_le; intros K; apply B; apply Dv; exact K).
      assert (INR n = INR (n - 1) + 1) by (rewrite <- S_INR; f_equal; lia).
      split; [apply Dv; lra|]. split; nra.
    - exists 0%nat. cbn. split; [apply Dv; lra|lra].
  Qed.

  Record fresh (bb : rect R) (sts : list hazard) (dim : R) (g : hpg R D) : Prop := {
    fr_dim : 0 < dim; fr_box : hg_bbox g = bb; fr_unc : hg_unc g = []; fr_rad : hg_rad g = half_diag dim; fr_wf : grid_wf (hg_grid g);
    fr_cells : all_cells (fun c => static_cell M sts c /\ c_uni c = c_stat c /\ c_rad c = half_diag dim /\
                 exists i j, c_bbox' c = square bb dim i j /\ INR i < r_width bb / dim /\ INR j < r_height bb / dim) (hg_grid g);
    fr_rows : forall y, In y (g_rows (hg_grid g)) -> exists j, INR j < r_height bb / dim /\ y = y_min bb + dim * (INR j + / 2);
    fr_cols : forall x, In x (g_cols (hg_grid g)) -> exists i, INR i < r_width bb / dim /\ x = x_min bb + dim * (INR i + / 2);
    fr_at : forall r c y x, nth_error (g_rows (hg_grid g)) r = Some y -> nth_error (g_cols (hg_grid g)) c = Some x ->
              forall ce, cell_at (hg_grid g) (r * n_cols (hg_grid g) + c) = Some ce -> c_cen ce = Pt x y;
    fr_square : forall i j, INR i < r_width bb / dim -> INR j < r_height bb / dim ->
      (exists c, In (Some c) (g_cells (hg_grid g)) /\ c_bbox' c = square bb dim i j) \/
      (forall p, in_rect (square bb dim i j) p -> exists h, In h sts /\ uniP h /\ blocked (fact_of h) p);
    fr_kept : forall i j, INR i < r_width bb / dim -> INR j < r_height bb / dim ->
      ((exists c, In (Some c) (g_cells (hg_grid g)) /\ c_bbox' c = square bb dim i j) <-> kept bb (filter (fun h => ent_universal (h_ent h)) sts) dim i j);
    fr_row_cell : forall y, In y (g_rows (hg_grid g)) -> exists c, In (Some c) (g_cells (hg_grid g)) /\ py (c_cen c) = y;
    fr_col_cell : forall x, In x (g_cols (hg_grid g)) -> exists c, In (Some c) (g_cells (hg_grid g)) /\ px (c_cen c) = x }.

  Lemma hpg_new_ok : forall bb (sts : list hazard) n g, proper bb -> Forall (fun h => sound_poly (a_obj (h_shape h))) sts ->
    hpg_new bb sts n = Ok g -> exists dim, fresh bb sts dim g.
  Proof.
    intros bb sts n g [Px Py] So E. unfold hpg_new in E. destruct n as [|n]; [discriminate|].
    apply rbind_ok in E as (rects & Eg & E). apply rbind_ok in E as (r0 & Er0 & E). apply rbind_ok in E as (els & Eels & E).
    apply rbind_ok in E as (gr & Egr & E). injection E as <-.
    set (hs := filter (fun h => ent_universal (h_ent h)) sts) in *.
    unfold generate in Eg. destruct (flt f0 (r_area bb)) eqn:Ea; [|discriminate]. apply gen_loop_ok in Eg as (cf & Eg).
    pose proof Eg as Eg'. apply gen_attempt_ok in Eg' as (Dz & Hr & ND & Tot). set (dim := gen_dim bb (S n) cf) in *.
    destruct rects as [|r rects]; [discriminate|]. cbn [hd_error expect] in Er0. injection Er0 as <-.
    assert (Wp : 0 < r_width bb) by (unfold r_width; cbn [fsub NMg RNumT]; lra). assert (Hp : 0 < r_height bb) by (unfold r_height; cbn [fsub NMg RNumT]; lra).
    assert (Dp : 0 < dim).
    { destruct (proj1 (Hr r) (or_introl eq_refl)) as (i & _ & Hi & _). pose proof (pos_INR i).
      destruct (Rlt_le_dec 0 dim) as [L|L]; [exact L|]. exfalso. assert (L' : 0 < - dim) by lra. apply Rinv_0_lt_compat in L'. rewrite Rinv_opp in L'.
      unfold Rdiv in Hi. nra. }
    assert (Sx : forall i j, x_min (square bb dim i j) <= x_max (square bb dim i j)) by (intros; unfold square; cbn [x_min x_max y_min y_max]; lra).
    assert (Sy : forall i j, y_min (square bb dim i j) <= y_max (square bb dim i j)) by (intros; unfold square; cbn [x_min x_max y_min y_max]; lra).
    pose proof (rmapM_at _ _ _ Eels) as (Le & Nel).
    assert (Ma : map snd els = map r_centroid (r :: rects)).
    { clear -Eels. revert els Eels. generalize (r :: rects) as l. induction l as [|x l IH]; intros els H; cbn [rmapM] in H.
      - injection H as <-. reflexivity.
      - apply rbind_ok in H as (y & Ey & H). apply rbind_ok in H as (ys & Eys & H). injection H as <-. cbn [map]. rewrite (IH ys Eys). f_equal.
        apply rbind_ok in Ey as (c & Ec & Ey). injection Ey as <-. cbn [snd]. unfold cell_new in Ec. apply rbind_ok in Ec as ([s q] & _ & Ec). injection Ec as <-. reflexivity. }
    assert (Elr : forall t p, In (t, p) els -> exists rr, In rr (r :: rects) /\ cell_new rr sts = Ok t /\ p = c_cen t).
    { clear -Eels. revert els Eels. generalize (r :: rects) as l. induction l as [|x l IH]; intros els H t p Hi; cbn [rmapM] in H.
      - injection H as <-. destruct Hi.
      - apply rbind_ok in H as (y & Ey & H). apply rbind_ok in H as (ys & Eys & H). injection H as <-. destruct Hi as [Hi|Hi].
        + subst y. apply rbind_ok in Ey as (c & Ec & Ey). injection Ey as <- <-. exists x. split; [left; reflexivity|auto].
        + destruct (IH ys Eys t p Hi) as (rr & A & B). exists rr. split; [right; exact A|exact B]. }
    assert (NDc : NoDup (map snd els)).
    { rewrite Ma. assert (Inj : forall a b, In a (r :: rects) -> In b (r :: rects) -> r_centroid a = r_centroid b -> a = b).
      { intros a b Ha Hb Q. apply Hr in Ha as (i & j & _ & _ & -> & _). apply Hr in Hb as (i' & j' & _ & _ & -> & _). rewrite !square_centroid in Q. injection Q as Q1 Q2.
        assert (i = i') as -> by (apply INR_eq; apply Rmult_eq_reg_l with dim; [lra|lra]). assert (j = j') as -> by (apply INR_eq; apply Rmult_eq_reg_l with dim; [lra|lra]). reflexivity. }
      clear -Inj ND. revert Inj ND. generalize (r :: rects) as l. induction l as [|x l IH]; intros Inj ND; cbn [map]; [constructor|]. inversion ND; subst. constructor.
      - intros K. apply in_map_iff in K as (y & Q & Hy). apply Inj in Q; [subst y; contradiction|right; exact Hy|left; reflexivity].
      - apply IH; [|assumption]. intros a b Ha Hb. apply Inj; right; assumption. }
    destruct (grid_new_ok BSok M els NDc) as (gr' & Egr' & Sr & Sc & Mr & Mc & Ln & At).
    assert (gr' = gr) as ->. { enough (Ok gr' = Ok gr) by congruence. rewrite <- Egr, <- Egr'. reflexivity. }
    assert (Sub : forall c, In (Some c) (g_cells gr) -> exists p, In (c, p) els /\ forall rw cl y x, nth_error (g_rows gr) rw = Some y -> nth_error (g_cols gr) cl = Some x ->
       cell_at gr (rw * n_cols gr + cl) = Some c -> p = Pt x y).
    { intros c Hc. apply In_nth_error in Hc as (k & Hk). assert (Lk : (k < n_rows gr * n_cols gr)%nat) by (rewrite <- Ln; apply nth_error_Some; congruence).
      assert (Nc : n_cols gr <> 0%nat) by (intros Z; rewrite Z in Lk; lia).
      assert (Dm : k = (Nat.div k (n_cols gr) * n_cols gr + Nat.modulo k (n_cols gr))%nat) by (rewrite Nat.mul_comm; apply Nat.div_mod; exact Nc).
      assert (L1 : (Nat.modulo k (n_cols gr) < n_cols gr)%nat) by (apply Nat.mod_upper_bound; exact Nc).
      assert (L2 : (Nat.div k (n_cols gr) < n_rows gr)%nat) by (apply Nat.div_lt_upper_bound; [exact Nc|rewrite Nat.mul_comm; exact Lk]).
      destruct (nth_error (g_rows gr) (Nat.div k (n_cols gr))) as [y|] eqn:Ey; [|apply nth_error_None in Ey; unfold n_rows in *; lia].
      destruct (nth_error (g_cols gr) (Nat.modulo k (n_cols gr))) as [x|] eqn:Ex; [|apply nth_error_None in Ex; unfold n_cols in *; lia].
      destruct (At _ _ _ _ Ey Ex) as (o & Eo & Io). rewrite <- Dm, Hk in Eo. injection Eo as <-.
      exists (Pt x y). assert (I1 : In (c, Pt x y) els) by (apply Io; reflexivity). split; [exact I1|].
      intros rw cl y' x' Ey' Ex' Ec. destruct (At _ _ _ _ Ey' Ex') as (o & Eo & Io'). unfold cell_at in Ec. rewrite Eo in Ec. subst o.
      assert (I2 : In (c, Pt x' y') els) by (apply Io'; reflexivity). apply Elr in I1 as (_ & _ & _ & ->). apply Elr in I2 as (_ & _ & _ & ->). reflexivity. }
    assert (Gen : forall rr, In rr (r :: rects) -> exists c, cell_new rr sts = Ok c /\ In (c, c_cen c) els).
    { intros rr Hrr. apply In_nth_error in Hrr as (k & Hk). destruct (Nel k rr Hk) as (y & Ey & Hy). apply rbind_ok in Ey as (c & Ec & Ey). injection Ey as <-.
      exists c. split; [exact Ec|]. eapply nth_error_In. exact Hy. }
    assert (Put : forall c, In (c, c_cen c) els -> In (Some c) (g_cells gr)).
    { intros c Hc. destruct (In_nth_error (g_rows gr) (py (c_cen c))) as (rw & Erw); [apply Mr; exists (c, c_cen c); auto|].
      destruct (In_nth_error (g_cols gr) (px (c_cen c))) as (cl & Ecl); [apply Mc; exists (c, c_cen c); auto|].
      destruct (At _ _ _ _ Erw Ecl) as (o & Eo & Io). assert (o = Some c) as ->. { apply Io. destruct (c_cen c) as [ux uy] eqn:Eu. cbn [px py] in *. exact Hc. }
      eapply nth_error_In. exact Eo. }
    assert (Cok : forall c p, In (c, p) els -> static_cell M sts c /\ c_uni c = c_stat c /\ c_rad c = half_diag dim /\ p = c_cen c /\
                 exists i j, c_bbox' c = square bb dim i j /\ c_cen c = r_centroid (square bb dim i j) /\ INR i < r_width bb / dim /\ INR j < r_height bb / dim).
    { intros c p Hc. apply Elr in Hc as (rr & Hrr & Ec & ->). apply Hr in Hrr as (i & j & Hi & Hj & -> & _).
      destruct (cell_new_ok (square bb dim i j) sts c So Ec (Sx i j) (Sy i j)) as (A1 & A2 & A3 & A4 & A5). rewrite square_diameter in A4 by lra.
      split; [exact A1|]. split; [exact A2|]. split; [exact A4|]. split; [reflexivity|]. exists i, j. auto. }
    destruct (Gen r (or_introl eq_refl)) as (c0 & Ec0 & Ic0).
    exists dim. split; cbn [hg_bbox hg_unc hg_rad hg_grid]; auto.
    - destruct (proj1 (Hr r) (or_introl eq_refl)) as (i & j & _ & _ & -> & _). transitivity (r_diameter (square bb dim i j) / 2); [|apply square_diameter; lra].
      unfold f2. cbn [fdiv fadd f1 NMg RNumT]. replace (1 + 1) with 2 by lra. reflexivity.
    - split; auto.
      + intros Z. assert (K : In (py (c_cen c0)) (g_rows gr)) by (apply Mr; exists (c0, c_cen c0); auto). rewrite Z in K. destruct K.
      + intros Z. assert (K : In (px (c_cen c0)) (g_cols gr)) by (apply Mc; exists (c0, c_cen c0); auto). rewrite Z in K. destruct K.
    - apply every_all. intros c Hc. destruct (Sub c Hc) as (p & Ip & _). destruct (Cok c p Ip) as (A1 & A2 & A3 & _ & i & j & B1 & _ & B2). split; [exact A1|]. split; [exact A2|]. split; [exact A3|]. exists i, j. auto.
    - intros y Hy. apply Mr in Hy as ([c p] & Ie & <-). destruct (Cok c p Ie) as (_ & _ & _ & -> & i & j & _ & B & _ & Lj). exists j. split; [exact Lj|]. cbn [snd]. rewrite B, square_centroid. reflexivity.
    - intros y Hy. apply Mc in Hy as ([c p] & Ie & <-). destruct (Cok c p Ie) as (_ & _ & _ & -> & i & j & _ & B & Lj & _). exists i. split; [exact Lj|]. cbn [snd]. rewrite B, square_centroid. reflexivity.
    - intros rw cl y x Ey Ex c Ec. assert (Hc : In (Some c) (g_cells gr)).
      { unfold cell_at in Ec. destruct (nth_error (g_cells gr) (rw * n_cols gr + cl)) as [o|] eqn:Eo; [|discriminate]. subst o. eapply nth_error_In. exact Eo. }
      destruct (Sub c Hc) as (p & Ip & Up). rewrite <- (Up rw cl y x Ey Ex Ec). destruct (Cok c p Ip) as (_ & _ & _ & -> & _). reflexivity.
    - intros i j Hi Hj. destruct (Tot i j Hi Hj) as (d & Ed). destruct (Rlt_dec 0 (d + half_diag dim)) as [L|L].
      + left. assert (Hin : In (square bb dim i j) (r :: rects)) by (apply Hr; exists i, j; split; [exact Hi|]; split; [exact Hj|]; split; [reflexivity|]; exists d; auto).
        destruct (Gen _ Hin) as (c & Ec & Ic). exists c. split; [apply Put; exact Ic|].
        destruct (cell_new_ok (square bb dim i j) sts c So Ec (Sx i j) (Sy i j)) as (_ & _ & A & _). exact A.
      + right. intros p Hp'. assert (So' : Forall (fun h => sound_poly (a_obj (h_shape h))) hs).
        { apply Forall_forall. intros h Hh. apply filter_In in Hh. rewrite Forall_forall in So. apply So, Hh. }
        assert (Ne : hs <> []).
        { intros Z. destruct (proj1 (Hr r) (or_introl eq_refl)) as (i0 & j0 & _ & _ & _ & d0 & Ed0 & L0). rewrite Z in Ed, Ed0. cbn in Ed, Ed0. injection Ed as <-. injection Ed0 as <-. contradiction. }
        destruct (not_kept bb hs dim i j p So' Dp Hp' (ex_intro _ d Ed) Ne) as (h & Hh & Bh).
        { intros (d' & Ed' & L'). rewrite Ed in Ed'. injection Ed' as <-. contradiction. }
        apply filter_In in Hh as [H1 H2]. exists h. auto.
    - intros i j Hi Hj. split.
      + intros (c & Hc & Bc). destruct (Sub c Hc) as (p & Ip & _). apply Elr in Ip as (rr & Hrr & Ec & _). apply Hr in Hrr as (i' & j' & _ & _ & -> & K).
        destruct (cell_new_ok (square bb dim i' j') sts c So Ec (Sx i' j') (Sy i' j')) as (_ & _ & A & _). rewrite A in Bc.
        assert (Q := f_equal r_centroid Bc). rewrite !square_centroid in Q. injection Q as Q1 Q2.
        assert (i' = i) as -> by (apply INR_eq; apply Rmult_eq_reg_l with dim; [lra|lra]). assert (j' = j) as -> by (apply INR_eq; apply Rmult_eq_reg_l with dim; [lra|lra]). exact K.
      + intros K. assert (Hin : In (square bb dim i j) (r :: rects)) by (apply Hr; exists i, j; auto).
        destruct (Gen _ Hin) as (c & Ec & Ic). exists c. split; [apply Put; exact Ic|].
        destruct (cell_new_ok (square bb dim i j) sts c So Ec (Sx i j) (Sy i j)) as (_ & _ & A & _). exact A.
    - intros y Hy. apply Mr in Hy as ([c p] & Ie & <-). destruct (Cok c p Ie) as (_ & _ & _ & Ep & _). subst p. exists c. split; [apply Put; exact Ie|reflexivity].
    - intros x Hx. apply Mc in Hx as ([c p] & Ie & <-). destruct (Cok c p Ie) as (_ & _ & _ & Ep & _). subst p. exists c. split; [apply Put; exact Ie|reflexivity].
  Qed.

  Lemma covers : forall bb (sts : list hazard) dim g p, proper bb -> fresh bb sts dim g -> in_rect bb p ->
    (exists c, In (Some c) (g_cells (hg_grid g)) /\ in_rect (c_bbox' c) p) \/ exists h, In h sts /\ uniP h /\ blocked (fact_of h) p.
  Proof.
    intros bb sts dim g p [Px Py] F [Ix Iy].
    destruct (covering_index (r_width bb) dim (px p - x_min bb) (fr_dim _ _ _ _ F)) as (i & Hi & Li); [unfold r_width; cbn [fsub NMg RNumT]; lra|unfold r_width; cbn [fsub NMg RNumT]; lra|].
    destruct (covering_index (r_height bb) dim (py p - y_min bb) (fr_dim _ _ _ _ F)) as (j & Hj & Lj); [unfold r_height; cbn [fsub NMg RNumT]; lra|unfold r_height; cbn [fsub NMg RNumT]; lra|].
    assert (Ip : in_rect (square bb dim i j) p) by (split; cbn; lra).
    destruct (fr_square _ _ _ _ F i j Hi Hj) as [(c & Hc & Bc)|K]; [left; exists c; rewrite Bc; auto|right; apply K; exact Ip].
  Qed.
End Gen.
