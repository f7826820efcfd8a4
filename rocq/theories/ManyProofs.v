(** Convex hulls of several shapes. *)
From Coq Require Import Reals List Bool Arith Lra Lia Sorted.
From Verif Require Import Base Num GeoModel TransfModel PolyModel GeoSpec ShapeSpec ManySpec BaseProofs ParityProofs GeoPrimProofs PipProofs NormProofs HullProofs.
Import ListNotations.
Local Open Scope R_scope.
#[local] Existing Instance RNum.
#[local] Existing Instance RTrig.

Lemma nths_ok : forall (l : list rpoint) idx h, map (nth_error l) idx = map Some h -> rmapM (fun i => expect (nth_error l i)) idx = Ok h.
Proof.
  intros l idx. induction idx as [|i idx IH]; intros [|p h] H; cbn [map] in H; try discriminate; [reflexivity|]. injection H as H1 H2. cbn [rmapM]. rewrite H1. cbn [expect rbind]. rewrite (IH h H2). reflexivity.
Qed.
Lemma indices_ok : forall l h, (forall v, In v h -> In v l) -> exists idx, rmapM (fun p => expect (position (fun x => pt_eq x p) l)) h = Ok idx /\ map (nth_error l) idx = map Some h.
Proof.
  intros l h. induction h as [|p h IH]; intros H; [exists []; split; reflexivity|].
  destruct (IH (fun v Hv => H v (or_intror Hv))) as (idx & E & K). cbn [rmapM].
  destruct (position (fun x => pt_eq x p) l) as [i|] eqn:Ei.
  - cbn [expect rbind]. rewrite E. cbn [rbind]. exists (i :: idx). split; [reflexivity|]. cbn [map]. rewrite K. f_equal.
    apply position_some in Ei as (l1 & x & l2 & -> & <- & Ex & _). rewrite nth_error_app2, Nat.sub_diag by lia. cbn [nth_error]. f_equal.
    unfold pt_eq in Ex. apply andb_prop in Ex as (A & B). apply Reqb_spec in A. apply Reqb_spec in B. destruct x, p; cbn in *; congruence.
  - exfalso. pose proof (proj1 (position_none (fun x => pt_eq x p) l) Ei p (H p (or_introl eq_refl))) as A. unfold pt_eq in A. change (Reqb (px p) (px p) && Reqb (py p) (py p) = false) in A.
    rewrite (proj2 (Reqb_spec (px p) (px p)) eq_refl), (proj2 (Reqb_spec (py p) (py p)) eq_refl) in A. discriminate.
Qed.
Lemma hull_indices_ok : forall l, (2 <= length l)%nat -> sides_one_way l -> exists idx h, convex_hull_indices l = Ok idx /\ map (nth_error l) idx = map Some h /\
  (forall p, In p h -> In p l) /\ forall p, In p l -> in_hull h p.
Proof.
  intros l L W. destruct (hull_ok l L W) as (A & B). destruct (indices_ok l (convex_hull l) A) as (idx & E & K). exists idx, (convex_hull l). auto.
Qed.
(** surrogates record the hull *)
Theorem surrogate_knows : forall cfg sc s s', (2 <= length (p_pts s))%nat -> sides_one_way (p_pts s) -> generate_surrogate cfg sc s = Ok s' -> hull_known s'.
Proof.
  intros cfg sc s s' L W H. unfold generate_surrogate in H. apply rbind_ok in H as (u & E & H). injection H as <-. unfold hull_known. cbn [p_surr p_pts].
  unfold surrogate_new in E. destruct (hull_indices_ok (p_pts s) L W) as (idx & h & Ei & K & A & B). rewrite Ei in E. cbn [rbind] in E.
  apply rbind_ok in E as (hp & _ & E). apply rbind_ok in E as (? & _ & E). apply rbind_ok in E as (add & _ & E). apply rbind_ok in E as (bc & _ & E).
  apply rbind_ok in E as (pi & _ & E). injection E as <-. cbn [s_hull]. exists h. split; [exact K|]. split; cbn [p_pts]; assumption.
Qed.
(** and they still do when the shape is transformed *)
Lemma in_hull_tr : forall t h p, in_hull h p -> in_hull (map (tr_point t) h) (tr_point t p).
Proof.
  intros t h p H u c K.
  assert (D : forall q, dotp u (tr_point t q) = dotp (Pt (px u * m00 t + py u * m10 t) (px u * m01 t + py u * m11 t)) q + (px u * m02 t + py u * m12 t)).
  { intros q. unfold dotp, tr_point. cbn. ring. }
  rewrite D. apply Rplus_le_reg_r with (- (px u * m02 t + py u * m12 t)).
  replace (dotp _ p + _ + _) with (dotp (Pt (px u * m00 t + py u * m10 t) (px u * m01 t + py u * m11 t)) p) by ring. apply H.
  intros v Hv. specialize (K _ (in_map (tr_point t) h v Hv)). rewrite D in K. lra.
Qed.
Theorem transform_knows : forall t s, p_surr s <> None -> hull_known s -> hull_known (tr_poly t s).
Proof.
  intros t s Hs H. unfold hull_known in *. unfold tr_poly. cbn [p_surr p_pts]. destruct (p_surr s) as [u|]; [|congruence]. cbn [option_map].
  destruct H as (h & K & A & B). exists (map (tr_point t) h). split.
  - transitivity (map (option_map (tr_point t)) (map (nth_error (p_pts s)) (s_hull u))).
    + rewrite map_map. apply map_ext. intros i. apply nth_error_map.
    + rewrite K, !map_map. reflexivity.
  - split; cbn [p_pts].
    + intros p Hp. apply in_map_iff in Hp as (q & <- & Hq). apply in_map, A, Hq.
    + intros p Hp. apply in_map_iff in Hp as (q & <- & Hq). apply in_hull_tr, B, Hq.
Qed.
Lemma points_of_known : forall s, hull_known s -> exists h, hull_points_of s = Ok h /\ spans s h.
Proof.
  intros s H. unfold hull_known in H. unfold hull_points_of. destruct (p_surr s) as [u|].
  - destruct H as (h & K & A). cbn [rbind]. exists h. split; [exact (nths_ok _ _ _ K)|exact A].
  - destruct H as (L & W). destruct (hull_indices_ok _ L W) as (idx & h & E & K & A). rewrite E. cbn [rbind]. exists h. split; [exact (nths_ok _ _ _ K)|exact A].
Qed.
Lemma in_hull_mono : forall h h' p, (forall v, In v h -> in_hull h' v) -> in_hull h p -> in_hull h' p.
Proof. intros h h' p H K u c Hc. apply K. intros v Hv. exact (H v Hv u c Hc). Qed.
Theorem shapes_hull : forall l, Forall hull_known l -> exists ps, Forall2 spans l ps /\ exists h, convex_hull_from_shapes l = Ok h /\
  ((2 <= length (concat ps))%nat -> sides_one_way (concat ps) ->
   (forall v, In v h -> exists s, In s l /\ In v (p_pts s)) /\ forall s p, In s l -> In p (p_pts s) -> in_hull h p).
Proof.
  intros l H. assert (K : exists ps, rmapM hull_points_of l = Ok ps /\ Forall2 spans l ps).
  { induction l as [|s l IH]; [exists []; split; [reflexivity|constructor]|]. destruct (IH (Forall_inv_tail H)) as (ps & E & F).
    destruct (points_of_known s (Forall_inv H)) as (h & Eh & Sh). exists (h :: ps). split; [cbn [rmapM]; rewrite Eh; cbn [rbind]; rewrite E; reflexivity|constructor; assumption]. }
  destruct K as (ps & E & F). exists ps. split; [exact F|]. unfold convex_hull_from_shapes. rewrite E. cbn [rbind]. exists (convex_hull (concat ps)). split; [reflexivity|].
  intros L W. destruct (hull_ok _ L W) as (A & B). clear E H L W.
  assert (C : (forall v, In v (concat ps) -> exists s, In s l /\ In v (p_pts s)) /\ forall s p, In s l -> In p (p_pts s) -> in_hull (concat ps) p).
  { clear A B. induction F as [|s h l ps (S1 & S2) F IH]; [split; [intros v []|intros s p []]|]. destruct IH as (I1 & I2). cbn [concat]. split.
    - intros v Hv. apply in_app_or in Hv as [Hv|Hv]; [exists s; split; [left; reflexivity|exact (S1 v Hv)]|]. destruct (I1 v Hv) as (s' & X & Y). exists s'. split; [right; exact X|exact Y].
    - intros s' p [<-|Hs] Hp u c Hc; [apply (S2 p Hp u c)|apply (I2 s' p Hs Hp u c)]; intros v Hv; apply Hc, in_or_app; auto. }
  destruct C as (C1 & C2). split; [intros v Hv; exact (C1 v (A v Hv))|]. intros s p Hs Hp. exact (in_hull_mono _ _ p B (C2 s p Hs Hp)).
Qed.
(** two triangles beside each other *)
Definition tri_a : poly R := Poly [Pt 0 0; Pt 2 0; Pt 1 1] (Rc 0 0 2 1) 1 2 (Ci (Pt 1 (1/3)) (1/4)) (Some (Sur [0; 1; 2]%nat [] (Ci (Pt 1 0) 2) [] 0)).
Definition tri_b : poly R := Poly [Pt 3 0; Pt 5 0; Pt 4 1] (Rc 3 0 5 1) 1 2 (Ci (Pt 4 (1/3)) (1/4)) (Some (Sur [0; 1; 2]%nat [] (Ci (Pt 4 0) 2) [] 0)).
Lemma two_triangles : Forall hull_known [tri_a; tri_b] /\ exists h, convex_hull_from_shapes [tri_a; tri_b] = Ok h /\
  forall s p, In s [tri_a; tri_b] -> In p (p_pts s) -> in_hull h p.
Proof.
  assert (K : Forall hull_known [tri_a; tri_b]).
  { repeat constructor; unfold hull_known; cbn [tri_a tri_b p_surr s_hull]; [exists [Pt 0 0; Pt 2 0; Pt 1 1]|exists [Pt 3 0; Pt 5 0; Pt 4 1]]; (split; [reflexivity|]);
      (split; [intros p Hp; exact Hp|intros p Hp u c Hc; exact (Hc p Hp)]). }
  split; [exact K|]. set (ps := [[Pt 0 0; Pt 2 0; Pt 1 1]; [Pt 3 0; Pt 5 0; Pt 4 1]]).
  assert (W : sides_one_way (concat ps)).
  { intros x [Hx|Hx].
    - pose proof (Hx (Pt 0 0) (or_introl eq_refl)) as H0. cbn [px] in H0. cbn [ps concat app filter px].
      do 5 (match goal with |- context [Reqb ?a x] => lazymatch a with 0 => fail | _ => replace (Reqb a x) with false by (symmetry; apply Reqb_nspec; lra) end end).
      destruct (Reqb 0 x); left; repeat constructor.
    - assert (H0 : 5 <= x) by exact (Hx (Pt 5 0) (or_intror (or_intror (or_intror (or_intror (or_introl eq_refl)))))). cbn [ps concat app filter px].
      do 5 (match goal with |- context [Reqb ?a x] => lazymatch a with 5 => fail | _ => replace (Reqb a x) with false by (symmetry; apply Reqb_nspec; lra) end end).
      destruct (Reqb 5 x); left; repeat constructor. }
  assert (E : convex_hull_from_shapes [tri_a; tri_b] = Ok (convex_hull (concat ps))) by reflexivity.
  exists (convex_hull (concat ps)). split; [exact E|]. destruct (hull_ok (concat ps)) as (_ & B); [cbn; lia|exact W|].
  intros s p [<-|[<-|[]]] Hp; apply B; cbn [ps concat]; apply in_or_app; [left|right; apply in_or_app; left]; exact Hp.
Qed.
