(** Cells of the proximity grid. *)
From Coq Require Import List Bool Arith Lia Permutation.
From Verif Require Import Base Num GeoModel HazardModel QTModel TransfModel HpgModel CdeModel BaseProofs CdeSpec GeoSpec ParityProofs
  HazVecProofs QTProofs GeoPrimProofs PipProofs RegionProofs CdeProofs CdeGeoProofs PlaceSpec HpgSpec HpgGridProofs.
From Coq Require Import Reals Lra.
From Verif Require Import GeoModel HazardModel QTModel TransfModel HpgModel CdeModel CdeSpec GeoSpec PlaceSpec HpgSpec.
Import ListNotations.
Local Open Scope R_scope.

Lemma gap_ok : forall k p, 0 <= crad k -> distance_to (in_disk k) p (gap k p).
Proof.
  intros k p H. unfold gap, Rmax. destruct (Rle_dec 0 (edist p (ccen k) - crad k)) as [L|L]; split.
  - destruct (walk p (ccen k) (edist p (ccen k) - crad k) L) as (x & A & B & _). exists x. split; [|exact A].
    unfold in_disk. rewrite B; [lra|]. lra.
  - intros q Hq. unfold in_disk in Hq. pose proof (edist_tri p q (ccen k)). lra.
  - exists p. split; [unfold in_disk; lra|apply edist_refl].
  - intros q _. apply edist_nonneg.
Qed.
Lemma gap_nonneg : forall k p, 0 <= gap k p. Proof. intros. apply Rmax_l. Qed.
Lemma gap_mono : forall k b p, 0 <= crad k -> (forall x, in_disk k x -> in_disk b x) -> gap b p <= gap k p.
Proof.
  intros k b p Hk S. destruct (gap_ok k p Hk) as [(q & Dq & E) _]. rewrite <- E. unfold gap. apply Rmax_lub; [apply edist_nonneg|].
  apply S in Dq. unfold in_disk in Dq. pose proof (edist_tri p q (ccen b)). lra.
Qed.
Lemma gap_lip : forall k p q, gap k q <= gap k p + edist p q.
Proof.
  intros k p q. unfold gap. apply Rmax_lub.
  - pose proof (Rmax_l 0 (edist p (ccen k) - crad k)). pose proof (edist_nonneg p q). lra.
  - pose proof (Rmax_r 0 (edist p (ccen k) - crad k)). pose proof (edist_tri q p (ccen k)). rewrite (edist_sym q p) in H0. lra.
Qed.

(** *** the minimum of a list *)
Section Min.
  Variable M : R.
  #[local] Instance NM : Num R := RNumT Reqb M.
  Lemma fmin_first_ok : forall a b : R, fmin_first a b = Rmin a b.
  Proof. intros a b. unfold fmin_first. cbn [flt NM RNumT]. unfold Rltb, Rmin. destruct (Rlt_dec b a), (Rle_dec a b); lra. Qed.
  Lemma fmin_list_ok : forall l : list R, l <> [] -> exists m, fmin_list l = Some m /\ In m l /\ forall x, In x l -> m <= x.
  Proof.
    intros [|x l] H; [congruence|]. clear H. unfold fmin_list.
    assert (K : forall l a, In (fold_left fmin_first l a) (a :: l) /\ forall x, In x (a :: l) -> fold_left fmin_first l a <= x).
    { clear. induction l as [|y l IH]; intros a; cbn [fold_left].
      - split; [left; reflexivity|]. intros x [<-|[]]. lra.
      - destruct (IH (fmin_first a y)) as [I L]. rewrite fmin_first_ok in *. split.
        + destruct I as [I|I]; [|right; right; exact I]. rewrite <- I. unfold Rmin. destruct (Rle_dec a y); [left|right; left]; reflexivity.
        + pose proof (L _ (or_introl eq_refl)) as L0. intros x [<-|[<-|Hx]].
          * eapply Rle_trans; [exact L0|apply Rmin_l].
          * eapply Rle_trans; [exact L0|apply Rmin_r].
          * apply L. right. exact Hx. }
    destruct (K l x) as [I L]. eauto.
  Qed.
End Min.

(** *** the border distance of a polygon *)
Lemma edist_zero : forall p q, edist p q = 0 -> p = q.
Proof. intros [p1 p2] [q1 q2] Z. pose proof (edist_sq (Pt p1 p2) (Pt q1 q2)) as S. rewrite Z in S. cbn [px py] in S.
  pose proof (pow2_ge_0 (p1 - q1)). pose proof (pow2_ge_0 (p2 - q2)). f_equal; apply Rminus_diag_uniq; apply Rsqr_eq_0; unfold Rsqr; nra. Qed.
Section Poly.
  #[local] Existing Instance RNum.
  Lemma pp_total : forall (s : poly R) p, wf_poly s -> exists b, pp_collides s p = Ok b.
  Proof.
    intros s p W. unfold pp_collides. destruct (rp_collides (p_bbox s) p); [|eauto].
    rewrite (rfold_ok _ (fun n i => if ray_counts (p_bbox s) p (edge_at s i) then S n else n)).
    - cbn [rbind]. eauto.
    - intros a i Hi. unfold edge_indices in Hi. apply in_seq in Hi. rewrite (get_edge_at s i W) by lia. reflexivity.
  Qed.
  Lemma p_dist_border_ok : forall (s : poly R) p, sound_poly s -> p_pts s <> [] ->
    exists pos d, p_dist_border s p = Ok (pos, d) /\ distance_to (on_border (p_pts s)) p d /\
      (on_border (p_pts s) p \/ (pos = Interior <-> even_odd (p_pts s) p = true)).
  Proof.
    intros s p So Ne. pose proof (sound_wf s So) as W. unfold p_dist_border, p_sqdist_border.
    rewrite (rmapM_ok _ (fun i => e_sqdist (edge_at s i) p)).
    2: { intros i Hi. unfold edge_indices in Hi. apply in_seq in Hi. rewrite (get_edge_at s i W) by lia. reflexivity. }
    cbn [rbind]. rewrite <- (map_map (edge_at s) (fun e => e_sqdist e p)), (map_edge_at s W).
    assert (Rn : ring (p_pts s) <> []) by (destruct (p_pts s) as [|a [|b r]]; [congruence|discriminate|discriminate]).
    destruct (fmin_list_ok 0 (map (fun e => e_sqdist e p) (ring (p_pts s)))) as (m & Em & Im & Lm).
    { intros K. apply map_eq_nil in K. contradiction. }
    change (@fmin_list R RNum (map (fun e => e_sqdist e p) (ring (p_pts s))) = Some m) in Em. rewrite Em. cbn [expect rbind].
    destruct (pp_total s p W) as [b Eb]. rewrite Eb. cbn [rbind]. eexists. eexists. split; [reflexivity|].
    apply in_map_iff in Im. destruct Im as (e & Ee & Ie). split.
    - cbn [fsqrt RNum RNumT]. rewrite <- Ee, e_sqdist_ok, sqrt_square by apply edist_nonneg. split.
      + exists (closest_point_on_edge e p). split; [|reflexivity]. exists e. split; [exact Ie|apply closest_ok].
      + intros q (e' & Ie' & Oq). assert (K : m <= e_sqdist e' p) by (apply Lm, in_map_iff; exists e'; auto).
        rewrite <- Ee, !e_sqdist_ok in K.
        assert (L : edist p (closest_point_on_edge e' p) <= edist p q) by (apply (closest_ok e' p); exact Oq).
        pose proof (edist_nonneg p (closest_point_on_edge e p)). pose proof (edist_nonneg p (closest_point_on_edge e' p)). nra.
    - destruct (on_border_dec (p_pts s) p) as [B|B]; [left; exact B|right].
      rewrite (pip s p W (proj2 So) B) in Eb. injection Eb as <-. destruct (even_odd (p_pts s) p); split; congruence.
  Qed.

  Context {D : Type}.
  (** the proximity of a hazard is the distance to the points it forbids *)
  Lemma prox_ok : forall (f : CdeSpec.fact R D) p, sound_poly (f_poly f) -> p_pts (f_poly f) <> [] ->
    exists pos d, p_dist_border (f_poly f) p = Ok (pos, d) /\ 0 <= d /\
      distance_to (blocked f) p (if geopos_eqb pos (ent_position (f_ent f)) then 0 else d) /\
      (geopos_eqb pos (ent_position (f_ent f)) = true -> forall q, edist p q <= d -> blocked f q).
  Proof.
    intros f p So Ne. destruct (p_dist_border_ok (f_poly f) p So Ne) as (pos & d & E & [(q0 & B0 & D0) Dm] & Po).
    exists pos, d. split; [exact E|]. assert (Nd : 0 <= d) by (rewrite <- D0; apply edist_nonneg). split; [exact Nd|].
    assert (Same : forall q, edist p q < d -> ~ on_border (p_pts (f_poly f)) q /\ even_odd (p_pts (f_poly f)) q = even_odd (p_pts (f_poly f)) p).
    { intros q Lq. assert (Nb : forall x, on_seg (Ed p q) x -> ~ on_border (p_pts (f_poly f)) x).
      { intros x (t & Ht & ->) Bx. apply Dm in Bx. assert (K : edist p (at_t (Ed p q) t) <= edist p q); [|lra].
        apply edist_le; [apply edist_nonneg|]. rewrite edist_sq. unfold at_t. cbn [px py es ee].
        replace ((px p - (px p + t * (px q - px p))) ^ 2 + (py p - (py p + t * (py q - py p))) ^ 2) with (t * t * ((px p - px q) ^ 2 + (py p - py q) ^ 2)) by ring.
        pose proof (sqd_nonneg (px p - px q) (py p - py q)). assert (t * t <= 1) by nra. nra. }
      split; [apply Nb; exists 1; split; [lra|]; unfold at_t; cbn [px py es ee]; destruct q as [qx qy]; cbn [px py]; f_equal; lra|].
      symmetry. apply even_odd_path. exact Nb. }
    assert (BB : on_border (p_pts (f_poly f)) p -> d = 0).
    { intros B. apply Dm in B. rewrite edist_refl in B. lra. }
    assert (Pb : geopos_eqb pos (ent_position (f_ent f)) = true -> blocked f p).
    { intros G. destruct Po as [B|Po]; [apply border_blocked; exact B|]. unfold blocked. destruct (ent_position (f_ent f)), pos; try discriminate.
      - right. destruct (even_odd (p_pts (f_poly f)) p); [|reflexivity]. destruct Po as [_ Po]. specialize (Po eq_refl). discriminate.
      - right. apply Po. reflexivity. }
    split.
    - destruct (geopos_eqb pos (ent_position (f_ent f))) eqn:G.
      + split; [|intros; apply edist_nonneg]. exists p. split; [apply Pb; reflexivity|apply edist_refl].
      + split; [exists q0; split; [apply border_blocked; exact B0|exact D0]|].
        intros q Bq. destruct (Rle_lt_dec d (edist p q)) as [L|L]; [exact L|exfalso].
        destruct (Same q L) as [Nb Eo]. pose proof (edist_nonneg p q).
        destruct Po as [B|Po]; [apply BB in B; lra|].
        unfold blocked in Bq. destruct (ent_position (f_ent f)), pos; try discriminate G.
        * destruct Bq as [Bq|Bq]; [contradiction|]. rewrite Eo in Bq. rewrite (proj1 Po eq_refl) in Bq. discriminate.
        * destruct Bq as [Bq|Bq]; [contradiction|]. rewrite Eo in Bq. apply Po in Bq. discriminate.
    - intros G q Lq. specialize (Pb G). destruct (on_border_dec (p_pts (f_poly f)) q) as [Bq|Bq]; [apply border_blocked; exact Bq|].
      destruct (Req_dec (edist p q) 0) as [Z|Z]; [apply edist_zero in Z; subst q; exact Pb|]. pose proof (edist_nonneg p q) as Nq.
      assert (Eo : even_odd (p_pts (f_poly f)) q = even_odd (p_pts (f_poly f)) p).
      { symmetry. apply even_odd_path. intros x (t & Ht & ->) Bx. destruct (Req_dec t 1) as [T1|T1].
        - apply Bq. replace q with (at_t (Ed p q) t); [exact Bx|]. subst t. unfold at_t. cbn [px py es ee]. destruct q as [qx qy]; cbn [px py]; f_equal; lra.
        - apply Dm in Bx. assert (K : edist p (at_t (Ed p q) t) <= t * edist p q); [|nra].
          apply edist_le; [nra|]. unfold at_t. cbn [px py es ee].
          replace ((px p - (px p + t * (px q - px p))) ^ 2 + (py p - (py p + t * (py q - py p))) ^ 2) with (t * t * ((px p - px q) ^ 2 + (py p - py q) ^ 2)) by ring.
          rewrite <- edist_sq. nra. }
      unfold blocked, region in *.
      destruct (ent_position (f_ent f)); (destruct Pb as [Pb|Pb]; [apply BB in Pb; lra|right; rewrite Eo; exact Pb]).
  Qed.
End Poly.

(** *** updates of one cell *)
Section Cell.
  Context {D : Type} {ED : EqD D}.
  Variable M : R.
  #[local] Instance NM' : Num R := RNumT Reqb M.
  Local Notation cell := (cell R D).
  Local Notation hazard := (hazard R D).
  Local Notation fact := (CdeSpec.fact R D).

  Lemma circle_prox_ok : forall k p, 0 <= crad k -> circle_prox k p = gap k p.
  Proof.
    intros k p H. pose proof (cp_dist_border_ok k p H) as K. unfold circle_prox.
    change (@cp_dist_border R NM' k p) with (@cp_dist_border R RNum k p). destruct (cp_dist_border k p) as [pos d] eqn:E.
    destruct K as [[(q & Oq & Dq) Dm] Po]. destruct pos.
    - cbn [fabs NM' RNumT]. rewrite Rabs_right by (rewrite <- Dq; apply Rle_ge, edist_nonneg).
      assert (Out : crad k < edist p (ccen k)). { destruct (Rlt_le_dec (crad k) (edist p (ccen k))) as [L|L]; [exact L|]. exfalso. destruct Po as [_ Po]. specialize (Po L). discriminate. }
      unfold gap. rewrite Rmax_right by lra. apply Rle_antisym.
      + destruct (walk p (ccen k) (edist p (ccen k) - crad k)) as (x & A & B & _); [lra|]. rewrite <- A. apply Dm. unfold on_circle. rewrite B; lra.
      + rewrite <- Dq. unfold on_circle in Oq. pose proof (edist_tri p q (ccen k)). lra.
    - assert (L : edist p (ccen k) <= crad k) by (apply Po; reflexivity). unfold gap. rewrite Rmax_left by lra. reflexivity.
  Qed.

  (** what registering a pole or a hazard at distance [d] does to a cell *)
  Definition lower (c : cell) (d : R) (e : entity D) : cell :=
    if Rlt_dec d (fst (c_uni c)) then set_uni c (d, e) else c.
  Lemma lower_same : forall c d e, c_cen (lower c d e) = c_cen c /\ c_stat (lower c d e) = c_stat c /\ c_rad (lower c d e) = c_rad c /\
    c_qz (lower c d e) = c_qz c /\ c_bbox' (lower c d e) = c_bbox' c.
  Proof. intros c d e. unfold lower. destruct (Rlt_dec d (fst (c_uni c))); auto. Qed.
  Lemma lower_val : forall c d e, fst (c_uni (lower c d e)) = Rmin (fst (c_uni c)) d.
  Proof. intros c d e. unfold lower. destruct (Rlt_dec d (fst (c_uni c))); cbn; unfold Rmin; destruct (Rle_dec (fst (c_uni c)) d); lra. Qed.

  Lemma register_pole_ok : forall c (h : hazard) k, ent_position (h_ent h) = Interior -> 0 <= crad k ->
    exists u, cell_register_pole c h k = Ok (lower c (gap k (c_cen c)) (h_ent h), u) /\
      (u = Affected <-> gap k (c_cen c) < fst (c_uni c)) /\
      (u = NeighborsNotAffected <-> fst (c_uni c) <= gap k (c_cen c) /\ fst (c_uni c) + 2 * c_rad c < gap k (c_cen c) - 2 * c_rad c).
  Proof.
    intros c h k P Hk. unfold cell_register_pole. rewrite P, circle_prox_ok by exact Hk. unfold f2. cbn [flt fadd fsub fmul f1 NM' RNumT].
    unfold lower. unfold Rltb at 1. destruct (Rlt_dec (gap k (c_cen c)) (fst (c_uni c))) as [L|L].
    - eexists. split; [reflexivity|]. split; split; intros K; try reflexivity; try discriminate; try assumption. lra.
    - eexists. split; [reflexivity|]. unfold Rltb. replace (1 + 1) with 2 by lra.
      destruct (Rlt_dec (fst (c_uni c) + 2 * c_rad c) (gap k (c_cen c) - 2 * c_rad c)) as [L'|L']; split; split; intros K; try discriminate; try reflexivity; try contradiction; lra.
  Qed.
  Lemma register_hazard_ok : forall c (h : hazard), ent_position (h_ent h) = Interior -> probed (a_obj (h_shape h)) ->
    exists u k, cell_register_hazard c h = Ok (lower c (gap k (c_cen c)) (h_ent h), u) /\
      In k (poles_of (a_obj (h_shape h))) /\ forall k', In k' (poles_of (a_obj (h_shape h))) -> gap k (c_cen c) <= gap k' (c_cen c).
  Proof.
    intros c h P (s & Es & Ne & Rk & _). unfold cell_register_hazard, poles_of. rewrite P, Es. cbn [expect rbind]. unfold poles_prox.
    destruct (fmin_list_ok M (map (fun k => circle_prox k (c_cen c)) (s_poles s))) as (m & Em & Im & Lm).
    { intros K. apply map_eq_nil in K. contradiction. }
    change (@fmin_list R NM' (map (fun k => circle_prox k (c_cen c)) (s_poles s)) = Some m) in Em. rewrite Em. cbn [expect rbind].
    apply in_map_iff in Im. destruct Im as (k & Ek & Ik). rewrite circle_prox_ok in Ek by (apply Rk; exact Ik). subst m.
    unfold lower. cbn [flt NM' RNumT]. unfold Rltb at 1. destruct (Rlt_dec (gap k (c_cen c)) (fst (c_uni c))) as [L|L] eqn:El;
      (eexists; exists k; rewrite El; split; [reflexivity|]; split; [exact Ik|]; intros k' Ik'; rewrite <- (circle_prox_ok k') by (apply Rk; exact Ik');
       apply Lm, in_map_iff; exists k'; auto).
  Qed.

  Lemma lower_owned : forall unc A c d f k, owned_cell unc A c -> In f A -> In k (poles_of (f_poly f)) -> d = gap k (c_cen c) ->
    owned_cell unc A (lower c d (f_ent f)).
  Proof.
    intros unc A c d f k O Hf Hk ->. unfold lower. destruct (Rlt_dec (gap k (c_cen c)) (fst (c_uni c))) as [L|L]; [|exact O].
    right. right. exists f, k. auto.
  Qed.
  Lemma owned_mono : forall unc unc' A A' c, incl unc unc' -> incl A A' -> owned_cell (D := D) unc A c -> owned_cell unc' A' c.
  Proof.
    intros unc unc' A A' c U I [O|[O|(f & k & O1 & O2)]]; [left; exact O|right; left; apply U; exact O|].
    right. right. exists f, k. split; [apply I; exact O1|exact O2].
  Qed.
  Lemma low_mono : forall A A' c, incl A' A -> low_cell (D := D) A c -> low_cell A' c.
  Proof. intros A A' c I [L1 L2]. split; [exact L1|]. intros f k Hf. apply L2, I, Hf. Qed.

  (** *** rebuilding a cell from scratch *)
  Lemma rmapM_inv : forall {A B} (f : A -> res B) (P : A -> B -> Prop) l, (forall x, In x l -> exists y, f x = Ok y /\ P x y) ->
    exists l', rmapM f l = Ok l' /\ Forall2 P l l'.
  Proof.
    intros A B f P l. induction l as [|x l IH]; intros H; cbn [rmapM]; [exists []; auto|].
    destruct (H x (or_introl eq_refl)) as (y & E & Py). rewrite E. cbn [rbind].
    destruct IH as (l' & E' & F'); [intros z Hz; apply H; right; exact Hz|]. rewrite E'. cbn [rbind]. eauto.
  Qed.

  (** the entry of a hazard: its bounding proximity *)
  Definition entry_ok (c : cell) (x : hazard * option R) : Prop :=
    ent_position (h_ent (fst x)) = Interior /\ probed (a_obj (h_shape (fst x))) /\
    exists b, snd x = Some b /\ forall k, In k (poles_of (a_obj (h_shape (fst x)))) -> b <= gap k (c_cen c).
  Lemma bounding_ok : forall c (h : hazard), ent_position (h_ent h) = Interior -> probed (a_obj (h_shape h)) ->
    exists x, bounding_entry c h = Ok x /\ fst x = h /\ entry_ok c x.
  Proof.
    intros c h P Pr. pose proof Pr as (s & Es & Ne & Rk & Rb & In'). unfold bounding_entry. rewrite P, Es. cbn [expect rbind].
    eexists. split; [reflexivity|]. split; [reflexivity|]. split; [exact P|]. split; [exact Pr|]. cbn [fst snd].
    eexists. split; [reflexivity|]. intros k Hk. unfold poles_of in Hk. rewrite Es in Hk. rewrite circle_prox_ok by exact Rb.
    apply gap_mono; [apply Rk; exact Hk|]. intros x. apply In'. exact Hk.
  Qed.

  Lemma min_index_from_ok : forall (l : list (hazard * option R)) pre i best, i = length pre ->
    (exists l1 l2, pre = l1 ++ snd best :: l2 /\ length l1 = fst best) ->
    exists l1 l2, pre ++ l = l1 ++ snd (min_index_from i best l) :: l2 /\ length l1 = fst (min_index_from i best l).
  Proof.
    induction l as [|x l IH]; intros pre i best Hi (l1 & l2 & E & L); cbn [min_index_from].
    - exists l1, l2. rewrite app_nil_r. auto.
    - replace (pre ++ x :: l) with ((pre ++ [x]) ++ l) by (rewrite <- app_assoc; reflexivity). apply IH.
      + rewrite app_length. simpl. lia.
      + destruct (optlt (snd x) (snd (snd best))).
        * exists pre, []. cbn [fst snd]. split; [reflexivity|]. symmetry. exact Hi.
        * exists l1, (l2 ++ [x]). split; [|exact L]. rewrite E, <- app_assoc. reflexivity.
  Qed.
  Lemma min_from_least : forall (l : list (hazard * option R)) i best b, snd (snd best) = Some b ->
    (forall x, In x l -> exists y, snd x = Some y) ->
    exists m, snd (snd (min_index_from i best l)) = Some m /\ m <= b /\ (forall x y, In x l -> snd x = Some y -> m <= y).
  Proof.
    induction l as [|x l IH]; intros i best b Eb S; cbn [min_index_from].
    - exists b. split; [exact Eb|]. split; [lra|]. intros x y [].
    - destruct (S x (or_introl eq_refl)) as [y Ey]. rewrite Ey, Eb. cbn [optlt flt NM' RNumT]. unfold Rltb.
      destruct (Rlt_dec y b) as [L|L].
      + destruct (IH (Datatypes.S i) (i, x) y Ey) as (m & Em & Lm & Am); [intros z Hz; apply S; right; exact Hz|].
        exists m. split; [exact Em|]. split; [lra|]. intros z w [<-|Hz] Ew; [congruence|]. eapply Am; eassumption.
      + destruct (IH (Datatypes.S i) best b Eb) as (m & Em & Lm & Am); [intros z Hz; apply S; right; exact Hz|].
        exists m. split; [exact Em|]. split; [lra|]. intros z w [<-|Hz] Ew; [rewrite Ey in Ew; injection Ew as <-; lra|]. eapply Am; eassumption.
  Qed.
  Lemma min_index_ok : forall (l : list (hazard * option R)) c, (forall x, In x l -> entry_ok c x) -> l <> [] ->
    exists i x m l1 l2, min_index l = Some (i, x) /\ l = l1 ++ x :: l2 /\ length l1 = i /\ snd x = Some m /\
      forall y b, In y l -> snd y = Some b -> m <= b.
  Proof.
    intros [|x l] c H Ne; [congruence|]. cbn [min_index].
    destruct (min_index_from_ok l [x] 1 (0%nat, x)) as (l1 & l2 & E & L); [reflexivity|exists [], []; auto|].
    destruct (H x (or_introl eq_refl)) as (_ & _ & b & Eb & _).
    destruct (min_from_least l 1 (0%nat, x) b Eb) as (m & Em & Lm & Am).
    { intros y Hy. destruct (H y (or_intror Hy)) as (_ & _ & b' & Eb' & _). eauto. }
    destruct (min_index_from 1 (0%nat, x) l) as [i y]. cbn [fst snd] in *. exists i, y, m, l1, l2.
    split; [reflexivity|]. split; [exact E|]. split; [exact L|]. split; [exact Em|].
    intros z w [<-|Hz] Ez; [rewrite Eb in Ez; injection Ez as <-; exact Lm|]. eapply Am; eassumption.
  Qed.

  Definition same_frame (c c' : cell) : Prop :=
    c_cen c' = c_cen c /\ c_stat c' = c_stat c /\ c_rad c' = c_rad c /\ c_qz c' = c_qz c /\ c_bbox' c' = c_bbox' c.
  Lemma same_refl : forall c, same_frame c c. Proof. intros c. repeat split. Qed.
  Lemma same_trans : forall a b c, same_frame a b -> same_frame b c -> same_frame a c.
  Proof. intros a b c (A1 & A2 & A3 & A4 & A5) (B1 & B2 & B3 & B4 & B5). repeat split; congruence. Qed.

  Lemma register_loop_ok : forall n (l : list (hazard * option R)) c, length l = n ->
    (forall x, In x l -> entry_ok c x) ->
    exists c', register_loop n c l = Ok c' /\ same_frame c c' /\ fst (c_uni c') <= fst (c_uni c) /\
      (forall x k, In x l -> In k (poles_of (a_obj (h_shape (fst x)))) -> fst (c_uni c') <= gap k (c_cen c)) /\
      (c_uni c' = c_uni c \/ exists x k, In x l /\ h_ent (fst x) = snd (c_uni c') /\ In k (poles_of (a_obj (h_shape (fst x)))) /\ fst (c_uni c') = gap k (c_cen c)).
  Proof.
    induction n as [|n IH]; intros l c Ln H.
    - destruct l; [|discriminate]. cbn [register_loop min_index]. exists c. split; [reflexivity|]. split; [apply same_refl|].
      split; [lra|]. split; [intros x k []|]. left. reflexivity.
    - assert (Ne : l <> []) by (intros ->; discriminate).
      destruct (min_index_ok l c H Ne) as (i & x & m & l1 & l2 & Em & El & Li & Ex & Least).
      cbn [register_loop]. rewrite Em. destruct x as [h o]. cbn [snd] in Ex. subst o.
      assert (Hx : In (h, Some m) l) by (rewrite El; apply in_app_iff; right; left; reflexivity).
      destruct (H _ Hx) as (P & Pr & b & Eb & Bd). cbn [fst snd] in *. injection Eb as <-.
      cbn [fle NM' RNumT]. destruct (Rleb m (fst (c_uni c))) eqn:Lb; [apply Rleb_spec in Lb|apply Rleb_nspec in Lb].
      + destruct (register_hazard_ok c h P Pr) as (u & k & Er & Ik & Lk). rewrite Er. cbn [rbind].
        assert (Sw : exists l', swap_remove i l = Some ((h, Some m), l') /\ Permutation l ((h, Some m) :: l')).
        { rewrite El, <- Li. destruct (swap_remove (length l1) (l1 ++ (h, Some m) :: l2)) as [[z l']|] eqn:Sw; [|exfalso; rewrite swap_remove_spec in Sw; discriminate].
          assert (z = (h, Some m)) by (rewrite swap_remove_spec in Sw; congruence). subst z. exists l'. split; [reflexivity|].
          pose proof (swap_remove_perm _ _ _ _ Sw) as Pm. rewrite Pm. symmetry. apply Permutation_middle. }
        destruct Sw as (l' & Sw & Pl). rewrite Sw. cbn [expect rbind].
        set (c1 := lower c (gap k (c_cen c)) (h_ent h)).
        assert (S1 : same_frame c c1) by apply lower_same.
        destruct (IH l' c1) as (c' & E' & S' & L' & A' & O').
        { apply Permutation_length in Pl. simpl in Pl. lia. }
        { intros y Hy. assert (Iy : In y l) by (apply (Permutation_in _ (Permutation_sym Pl)); right; exact Hy).
          destruct (H y Iy) as (Q1 & Q2 & b' & Q3 & Q4). split; [exact Q1|]. split; [exact Q2|]. exists b'. split; [exact Q3|].
          destruct S1 as (-> & _). exact Q4. }
        exists c'. split; [exact E'|]. split; [eapply same_trans; eassumption|].
        pose proof (lower_val c (gap k (c_cen c)) (h_ent h)) as Lv. fold c1 in Lv.
        pose proof (Rmin_l (fst (c_uni c)) (gap k (c_cen c))). pose proof (Rmin_r (fst (c_uni c)) (gap k (c_cen c))).
        destruct S1 as (Ec & _). rewrite Ec in A', O'. split; [lra|]. split.
        * intros y k' Hy Hk'. apply (Permutation_in _ Pl) in Hy. destruct Hy as [<-|Hy]; [|apply (A' y); assumption].
          cbn [fst] in Hk'. specialize (Lk k' Hk'). lra.
        * destruct O' as [O'|(y & k' & Hy & O')].
          -- unfold c1, lower in O'. destruct (Rlt_dec (gap k (c_cen c)) (fst (c_uni c))); [|left; exact O'].
             right. exists (h, Some m), k. cbn [fst]. rewrite O'. split; [exact Hx|]. split; [reflexivity|]. split; [exact Ik|reflexivity].
          -- right. exists y, k'. split; [apply (Permutation_in _ (Permutation_sym Pl)); right; exact Hy|exact O'].
      + exists c. split; [reflexivity|]. split; [apply same_refl|]. split; [lra|]. split; [|left; reflexivity].
        intros y k Hy Hk. destruct (H y Hy) as (_ & _ & b' & Eb' & Bd'). specialize (Least y b' Hy Eb'). specialize (Bd' k Hk). lra.
  Qed.

  (** the cell rebuilt from its static value and the remaining hazards *)
  Lemma rebuild_ok : forall c (hs : list hazard), probed_facts (map fact_of hs) ->
    exists c', cell_register_hazards (set_uni c (c_stat c)) hs = Ok c' /\ same_frame c c' /\
      owned_cell [] (map fact_of hs) c' /\ low_cell (map fact_of hs) c'.
  Proof.
    intros c hs Pf. unfold cell_register_hazards. set (c0 := set_uni c (c_stat c)).
    assert (Hh : forall h, In h hs -> ent_position (h_ent h) = Interior /\ h_active h = true /\ probed (a_obj (h_shape h))).
    { intros h Hh. apply (Pf (fact_of h)), in_map, Hh. }
    assert (Fl : filter (fun h => h_active h) hs = hs).
    { clear -Hh. induction hs as [|h hs IH]; [reflexivity|]. cbn [filter]. destruct (Hh h (or_introl eq_refl)) as (_ & -> & _). f_equal. apply IH. intros x Hx. apply Hh. right. exact Hx. }
    rewrite Fl.
    destruct (rmapM_inv (bounding_entry c0) (fun h x => fst x = h /\ entry_ok c0 x) hs) as (l & El & F2).
    { intros h Ih. destruct (Hh h Ih) as (P & _ & Pr). apply bounding_ok; assumption. }
    rewrite El. cbn [rbind].
    assert (In1 : forall x, In x l -> In (fst x) hs /\ entry_ok c0 x).
    { clear -F2. induction F2 as [|h x hs l [E K] F2 IH]; intros y []; [subst; simpl; auto|]. destruct (IH y H). simpl. auto. }
    assert (In2 : forall h, In h hs -> exists x, In x l /\ fst x = h).
    { clear -F2. induction F2 as [|h x hs l [E K] F2 IH]; intros y []; [subst; exists x; simpl; auto|]. destruct (IH y H) as (z & A & B). exists z. simpl. auto. }
    destruct (register_loop_ok (length l) l c0 eq_refl) as (c' & E & S & L & A & O); [intros x Hx; apply In1; exact Hx|].
    exists c'. split; [exact E|]. split; [exact S|]. destruct S as (Ec & Es & _).
    split.
    - destruct O as [O|(x & k & Hx & Ee & Hk & Ev)].
      + left. rewrite O, Es. reflexivity.
      + right. right. exists (fact_of (fst x)), k. split; [apply in_map, In1, Hx|]. split; [exact Ee|]. split; [exact Hk|]. rewrite Ec. exact Ev.
    - split; [rewrite Es; exact L|]. intros f k Hf Hk. apply in_map_iff in Hf. destruct Hf as (h & <- & Ih). destruct (In2 h Ih) as (x & Hx & <-).
      rewrite Ec. eapply A; eassumption.
  Qed.
  Lemma memb_entity : forall (e : entity D) l, memb ent_eqb e l = true <-> In e l.
  Proof.
    intros e l. split; intros H.
    - apply memb_ent. exact H.
    - destruct (memb ent_eqb e l) eqn:Mb; [reflexivity|]. exfalso. revert H. apply memb_ent_false. exact Mb.
  Qed.

  (** removing hazards from a cell *)
  Lemma cell_deregister_ok : forall c (dereg unc : list (entity D)) (hs : list hazard) A,
    probed_facts (map fact_of hs) -> incl (map fact_of hs) A ->
    (forall f, In f A -> In (f_ent f) dereg \/ In f (map fact_of hs)) -> owned_cell (dereg ++ unc) A c ->
    exists c', cell_deregister dereg hs c = Ok c' /\ same_frame c c' /\ owned_cell unc (map fact_of hs) c' /\
      (low_cell A c -> low_cell (map fact_of hs) c').
  Proof.
    intros c dereg unc hs A Pf Sub Rem O. unfold cell_deregister. destruct (memb ent_eqb (snd (c_uni c)) dereg) eqn:Mb.
    - destruct (rebuild_ok c hs Pf) as (c' & E & S & O' & L). exists c'. split; [exact E|]. split; [exact S|].
      split; [|intros _; exact L]. apply (owned_mono [] unc (map fact_of hs)); [intros x []|apply incl_refl|exact O'].
    - exists c. split; [reflexivity|]. split; [apply same_refl|].
      assert (Nd : ~ In (snd (c_uni c)) dereg) by (apply memb_ent_false; exact Mb). split.
      + destruct O as [O|[O|(f & k & Hf & Ef & Hk & Ev)]].
        * left. exact O.
        * apply in_app_iff in O. destruct O as [O|O]; [contradiction|]. right. left. exact O.
        * right. right. exists f, k. split; [|auto]. destruct (Rem f Hf) as [K|K]; [|exact K]. rewrite Ef in K. contradiction.
      + intros L. apply (low_mono A); assumption.
  Qed.
End Cell.
