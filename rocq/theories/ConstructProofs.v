(** What [SimplePolygon::new] guarantees beyond normalisation, and the poles of the
    surrogate. *)
From Coq Require Import Reals List Bool Arith Lra Lia Psatz Permutation.
From Verif Require Import Base Num GeoModel HazardModel QTModel TransfModel PolyModel GeoSpec ShapeSpec PlaceSpec HpgSpec
  BaseProofs QTProofs ParityProofs GeoPrimProofs GeoRectProofs PipProofs RegionProofs RigidProofs XformProofs NormProofs BoundProofs HullProofs PoleProofs.
Import ListNotations.
Local Open Scope R_scope.
#[local] Existing Instance RNum.
#[local] Existing Instance RTrig.
#[local] Opaque next_pole MAX_POI_TREE_DEPTH.

Lemma path_distinct : forall l first a, NoDup (a :: l) -> ~ In first l -> (l = [] -> a <> first) ->
  forall e, In e (path_edges first a l) -> es e <> ee e.
Proof.
  induction l as [|b l IH]; intros first a ND NI Z e He; cbn [path_edges] in He.
  - destruct He as [<-|[]]. cbn. apply Z. reflexivity.
  - destruct He as [<-|He].
    + cbn. intros ->. inversion ND; subst. apply H1. left. reflexivity.
    + inversion ND; subst. apply (IH first b); auto; cbn in NI; [tauto|]. intros _ ->. tauto.
Qed.
Lemma nodup_nondegenerate : forall l, NoDup l -> (2 <= length l)%nat -> nondegenerate l.
Proof.
  intros [|a [|b l]] ND L; cbn [length] in L; try lia. intros e He. cbn [ring] in He.
  apply (path_distinct (b :: l) a a); auto; [|discriminate]. inversion ND; subst. exact H1.
Qed.
Lemma area_spread : forall l c, (forall p, In p l -> px p = c) \/ (forall p, In p l -> py p = c) -> shoelace l = 0.
Proof.
  intros l c H. unfold shoelace.
  assert (E : total (fun e => px (es e) * py (ee e) - px (ee e) * py (es e)) (ring l) = 0); [|rewrite E; lra].
  destruct H as [H|H].
  - transitivity (total (fun e => c * (py (ee e) - py (es e))) (ring l)).
    + unfold total. assert (G : forall es', (forall e, In e es' -> In e (ring l)) ->
        fold_right (fun x s => px (es x) * py (ee x) - px (ee x) * py (es x) + s) 0 es' = fold_right (fun x s => c * (py (ee x) - py (es x)) + s) 0 es').
      { induction es' as [|e es' IH]; intros I; cbn [fold_right]; [reflexivity|]. rewrite IH by (intros x X; apply I; right; exact X).
        destruct (ring_in l e (I e (or_introl eq_refl))) as (A & B). rewrite (H _ A), (H _ B). ring. }
      apply G. auto.
    + rewrite total_scal, total_ring. ring.
  - transitivity (total (fun e => - c * (px (ee e) - px (es e))) (ring l)).
    + unfold total. assert (G : forall es', (forall e, In e es' -> In e (ring l)) ->
        fold_right (fun x s => px (es x) * py (ee x) - px (ee x) * py (es x) + s) 0 es' = fold_right (fun x s => - c * (px (ee x) - px (es x)) + s) 0 es').
      { induction es' as [|e es' IH]; intros I; cbn [fold_right]; [reflexivity|]. rewrite IH by (intros x X; apply I; right; exact X).
        destruct (ring_in l e (I e (or_introl eq_refl))) as (A & B). rewrite (H _ A), (H _ B). ring. }
      apply G. auto.
    + rewrite total_scal, total_ring. ring.
Qed.
Lemma area_proper : forall l r, smallest_box r l -> shoelace l <> 0 -> proper r.
Proof.
  intros l r (I & _) A. split; apply Rnot_le_lt; intros H; apply A.
  - apply (area_spread l (x_min r)). left. intros p P. destruct (I p P) as (X & _). lra.
  - apply (area_spread l (y_min r)). right. intros p P. destruct (I p P) as (_ & Y). lra.
Qed.
Lemma made_sound : forall s, made s -> sound_poly s /\ p_pts s <> [].
Proof.
  intros s M. split.
  - split; [apply M|]. split; [apply M|]. apply (nm_box _ (md_norm _ M)).
  - pose proof (nm_size _ (md_norm _ M)). intros E. rewrite E in H. cbn in H. lia.
Qed.
Lemma dummy_sound : forall l d, NoDup l -> (3 <= length l)%nat -> shoelace l <> 0 ->
  sound_poly (Poly l (bbox_of_points l) (calculate_area l) d (Ci (Pt 0 0) 0) None) /\ l <> [].
Proof.
  intros l d ND L A. assert (NE : l <> []) by (intros ->; cbn in L; lia). split; [|exact NE].
  pose proof (bbox_ok l NE) as B. split; cbn [p_pts]; [apply nodup_nondegenerate; auto; lia|].
  split; cbn [p_bbox p_pts]; [apply (area_proper l); auto|apply B].
Qed.
Theorem new_made : forall l s, poly_new l = Ok s -> made s /\
  forall p r, clear_of (p_pts s) [] p r -> r <= crad (p_poi s) + resolution (p_bbox s) MAX_POI_TREE_DEPTH.
Proof.
  intros l s E. destruct (poly_new_ok l s E) as (N & O & _). pose proof (nm_size _ N) as Sz. pose proof (nm_distinct _ N) as Ds.
  assert (A : shoelace (p_pts s) <> 0) by (rewrite <- (nm_area _ N); pose proof (nm_positive _ N); lra).
  assert (PO : exists d, calculate_poi (p_pts s) d = Ok (p_poi s) /\ p_bbox s = bbox_of_points (p_pts s)).
  { unfold poly_new in E. destruct (rassert _) as [?|] in E; [|discriminate]. cbn [rbind] in E.
    destruct (rassert _) as [?|] in E; [|discriminate]. cbn [rbind] in E.
    destruct (feq (calculate_area l) f0); [discriminate|].
    destruct (if flt (calculate_area l) f0 then (rev l, fneg (calculate_area l)) else (l, calculate_area l)) as (pts & area).
    destruct (calculate_diameter pts) as [d|]; [|discriminate]. cbn [rbind] in E.
    destruct (calculate_poi pts d) as [c|] eqn:Ec; [|discriminate]. cbn [rbind] in E. injection E as <-. exists d. split; [exact Ec|reflexivity]. }
  destruct PO as (d & Ec & Eb). unfold calculate_poi, generate_next_pole in Ec. cbn [f0 RNum RNumT] in Ec.
  destruct (dummy_sound (p_pts s) d Ds Sz A) as (So & NE).
  destruct (next_pole_ok _ [] So NE ltac:(intros k []) MAX_POI_TREE_DEPTH) as (K1 & K2 & _).
  destruct (K1 _ Ec) as (R0 & C). cbn [p_pts p_bbox] in *. rewrite <- Eb in K2, Ec. split.
  - split; auto; [apply nodup_nondegenerate; auto; lia|apply (area_proper (p_pts s)); [apply N|exact A]].
  - intros p r H. apply (K2 _ p r Ec H).
Qed.
Theorem new_total : forall l, (3 <= length l)%nat -> NoDup l -> shoelace l <> 0 ->
  (exists p r, clear_of (if Rlt_dec (shoelace l) 0 then rev l else l) [] p r /\ resolution (bbox_of_points (if Rlt_dec (shoelace l) 0 then rev l else l)) MAX_POI_TREE_DEPTH < r) ->
  exists s, poly_new l = Ok s.
Proof.
  intros l L ND A (p & r & C & Rr). unfold poly_new.
  destruct (Nat.leb 3 (length l)) eqn:Q; [|apply Nat.leb_nle in Q; lia]. cbn [rassert rbind].
  rewrite (full_unique l [] ND) by (intros x _ []). rewrite Nat.eqb_refl. cbn [rassert rbind]. rewrite area_ok. cbn [feq flt fneg RNum RNumT f0].
  destruct (Reqb (shoelace l) 0) eqn:Z; [apply Reqb_spec in Z; contradiction|].
  set (l' := if Rlt_dec (shoelace l) 0 then rev l else l) in *.
  assert (H : exists a, (if Rltb (shoelace l) 0 then (rev l, - shoelace l) else (l, shoelace l)) = (l', a)).
  { unfold l', Rltb. destruct (Rlt_dec (shoelace l) 0); eauto. }
  destruct H as (a & ->).
  assert (L' : (3 <= length l')%nat) by (unfold l'; destruct (Rlt_dec _ _); [rewrite rev_length|]; exact L).
  assert (ND' : NoDup l') by (unfold l'; destruct (Rlt_dec _ _); [apply NoDup_rev|]; exact ND).
  assert (A' : shoelace l' <> 0) by (unfold l'; destruct (Rlt_dec _ _); [rewrite shoelace_rev|]; lra).
  destruct (diameter_total l' ltac:(lia)) as (d & ->). cbn [rbind].
  destruct (dummy_sound l' d ND' L' A') as (So & NE).
  destruct (next_pole_ok _ [] So NE ltac:(intros k []) MAX_POI_TREE_DEPTH) as (_ & _ & K).
  destruct (K p r C Rr) as (c & Ec). unfold calculate_poi.
  unfold generate_next_pole. cbn [f0 RNum RNumT]. rewrite Ec. cbn [rbind]. eauto.
Qed.
Lemma clear_rev : forall l ds p r, clear_of l ds p r -> clear_of (rev l) ds p r.
Proof.
  intros l ds p r (A & B & C). split; [rewrite even_odd_rev; exact A|]. split; [|exact C].
  intros q O. apply B, (proj1 (on_border_rev l q)), O.
Qed.
Lemma box_unique : forall r r' l, smallest_box r l -> smallest_box r' l -> r = r'.
Proof.
  intros [a b c d] [a' b' c' d'] l (I & (p1 & P1 & E1) & (p2 & P2 & E2) & (p3 & P3 & E3) & (p4 & P4 & E4))
    (I' & (q1 & Q1 & F1) & (q2 & Q2 & F2) & (q3 & Q3 & F3) & (q4 & Q4 & F4)). cbn in *.
  apply I' in P1, P2, P3, P4. apply I in Q1, Q2, Q3, Q4. unfold in_rect in *. cbn in *. f_equal; lra.
Qed.
Lemma box_rev : forall r l, smallest_box r l -> smallest_box r (rev l).
Proof.
  intros r l (I & (p1 & P1) & (p2 & P2) & (p3 & P3) & (p4 & P4)).
  split; [intros p P; apply I, in_rev, P|]. repeat split; eexists; rewrite <- in_rev; eauto.
Qed.
Theorem new_works : forall l bb p r, (3 <= length l)%nat -> NoDup l -> shoelace l <> 0 ->
  smallest_box bb l -> clear_of l [] p r -> resolution bb MAX_POI_TREE_DEPTH < r -> exists s, poly_new l = Ok s.
Proof.
  intros l bb p r L ND A B C Rr. apply new_total; auto. exists p, r. assert (NE : l <> []) by (intros ->; cbn in L; lia).
  destruct (Rlt_dec (shoelace l) 0).
  - split; [apply clear_rev, C|]. rewrite (box_unique (bbox_of_points (rev l)) bb (rev l)); [exact Rr| |apply box_rev, B].
    apply bbox_ok. intros E. apply NE. rewrite <- (rev_involutive l), E. reflexivity.
  - split; [exact C|]. rewrite (box_unique (bbox_of_points l) bb l); [exact Rr|apply bbox_ok, NE|exact B].
Qed.
Theorem new_good_shape : forall l s, poly_new l = Ok s -> no_spikes (p_pts s) -> good_shape s.
Proof.
  intros l s E S. destruct (new_made l s E) as (M & _). split; auto; try apply M.
  destruct (md_poi _ M) as (A & B & _). pose proof (md_radius _ M). split; [|exact A].
  intros O. specialize (B _ O). rewrite edist_refl in B. lra.
Qed.

(** *** rigid motions *)
Lemma clear_tr : forall t l ds p r, rigid t -> 0 < r -> clear_of l ds p r ->
  clear_of (map (tr_point t) l) (map (tr_circle t) ds) (tr_point t p) r.
Proof.
  intros t l ds p r Rg R0 (A & B & C).
  assert (In0 : interior l p) by (split; [intros O; specialize (B _ O); rewrite edist_refl in B; lra|exact A]).
  split; [apply (proj1 (proj2 (rigid_sets t l p Rg))), In0|]. split.
  - intros q O. destruct (rigid_surj t Rg q) as (q' & ->). rewrite (rigid_dist t Rg). apply B. apply (rigid_sets t l q' Rg), O.
  - intros k K. apply in_map_iff in K. destruct K as (k' & <- & K). cbn [tr_circle ccen crad]. rewrite (rigid_dist t Rg). apply C, K.
Qed.
Theorem made_tr : forall t s, rigid t -> made s -> made (tr_poly t s).
Proof.
  intros t s Rg M. destruct (norm_tr t s Rg (md_norm _ M)) as (N & _). split.
  - exact N.
  - cbn [tr_poly p_pts]. rewrite (tr_map t Rg). intros e He. rewrite ring_map in He. apply in_map_iff in He.
    destruct He as (e' & <- & He). cbn [emap es ee]. intros E. apply rot_inj in E; [|apply Rg]. apply (md_edges _ M e' He E).
  - apply (area_proper (p_pts (tr_poly t s))); [apply N|]. rewrite <- (nm_area _ N). pose proof (nm_positive _ N). lra.
  - apply M.
  - cbn [tr_poly p_pts p_poi tr_circle ccen crad]. apply (clear_tr t _ [] _ _ Rg (md_radius _ M) (md_poi _ M)).
Qed.

(** *** the surrogate *)
Theorem surrogate_poles : forall cfg sc s s', made s -> generate_surrogate cfg sc s = Ok s' ->
  made s' /\ p_pts s' = p_pts s /\ probed s' /\ poles_inside s' /\ disks_apart (poles_of s') /\
  exists u, p_surr s' = Some u /\ hd_error (s_poles u) = Some (p_poi s) /\ (length (s_poles u) <= Nat.max 1 (sc_max_poles sc))%nat /\
    s_nff u = Nat.min (sc_nff_poles sc) (length (s_poles u)) /\
    forall k, In k (s_poles u) -> good_pole (p_pts s) [] k.
Proof.
  intros cfg sc s s' M E. unfold generate_surrogate in E. destruct (surrogate_new cfg sc s) as [u|] eqn:U; [|discriminate].
  cbn [rbind] in E. injection E as <-. unfold surrogate_new in U.
  destruct (convex_hull_indices _) as [hull|]; [|discriminate]. cbn [rbind] in U.
  destruct (rmapM _ hull) as [hp|]; [|discriminate]. cbn [rbind] in U.
  destruct (poly_new hp) as [hs|]; [|discriminate]. cbn [rbind] in U.
  destruct (additional_poles _ _ _ _) as [add|] eqn:Ea; [|discriminate]. cbn [rbind] in U.
  destruct (made_sound s M) as (So & NE).
  apply additional_ok in Ea; auto; [|apply M|apply M]. destruct Ea as (La & Ga & Pa).
  assert (BC : exists b, bounding_circle (p_poi s :: add) = Ok b /\ forall k, In k (p_poi s :: add) -> disk_in k b).
  { apply bounding_ok; [left; apply M|]. intros k K. destruct (Ga k (or_intror K)) as (K0 & _). split; [lra|].
    destruct Pa as (Pa & _). specialize (Pa k K). unfold pair_apart in Pa. pose proof (md_radius _ M). lra. }
  destruct BC as (b & Eb & Hb). rewrite Eb in U. cbn [rbind] in U.
  destruct (generate_piers _ _ _ _) as [piers|]; [|discriminate]. cbn [rbind] in U. injection U as <-.
  assert (GP : forall k, In k (p_poi s :: add) -> good_pole (p_pts s) [] k).
  { intros k K. destruct (Ga k K). apply clear_good; auto. }
  split; [destruct M as [Nm M1 M2 M3 M4]; split; auto; destruct Nm; split; auto|]. split; [reflexivity|]. split.
  - exists (Sur hull (p_poi s :: add) b piers (Nat.min (sc_nff_poles sc) (length (p_poi s :: add)))). cbn [s_poles s_bcircle].
    split; [reflexivity|]. split; [discriminate|]. split; [intros k K; left; apply (Ga k K)|]. split.
    + specialize (Hb _ (or_introl eq_refl) (ccen (p_poi s))). unfold in_disk in Hb. rewrite edist_refl in Hb.
      pose proof (md_radius _ M). pose proof (edist_nonneg (ccen (p_poi s)) (ccen b)). lra.
    + intros k p K D. apply (Hb k K), D.
  - split; [intros k p K D; apply (gp_inside _ _ _ (GP k K) p D)|]. split; [apply pairwise_apart, Pa|].
    eexists. split; [reflexivity|]. cbn [s_poles s_nff hd_error]. split; [reflexivity|]. split; [cbn [length]; lia|]. split; [reflexivity|exact GP].
Qed.

Theorem additional_good : forall pi s n goal add, made s -> additional_poles pi s n goal = Ok add ->
  (length add <= n)%nat /\ (forall k, In k add -> good_pole (p_pts s) [p_poi s] k) /\ disks_apart (p_poi s :: add).
Proof.
  intros pi s n goal add M E. destruct (made_sound s M) as (So & NE).
  destruct (additional_ok s pi n goal add So NE (md_radius _ M) (md_poi _ M) E) as (L & G & P).
  split; [exact L|]. split; [|apply pairwise_apart, P].
  intros k K. destruct (G k (or_intror K)) as (K0 & (A & B & _)). apply clear_good; [exact K0|].
  split; [exact A|]. split; [exact B|]. intros j [<-|[]]. destruct P as (P & _). specialize (P k K). unfold pair_apart in P. rewrite edist_sym. lra.
Qed.
