(** Centres of mass. *)
From Coq Require Import List Bool Arith Lia.
From Verif Require Import Base Num GeoModel HazardModel QTModel TransfModel HpgModel CdeModel CdeSpec
  PolyModel ParserModel SimplModel SlotMapModel LayoutModel ProblemModel ProblemSpec LbfModel IoModel ParseModel
  BaseProofs Instances ParityProofs PipProofs NormProofs XformProofs ParseProofs ParseThmProofs ParseReadProofs.
From Coq Require Import Reals Lra.
From Verif Require Import GeoModel HazardModel QTModel TransfModel HpgModel CdeModel CdeSpec GeoSpec PlaceSpec HpgSpec ShapeSpec SimplSpec LbfModel LbfSpec IoModel IoSpec ParseModel ParseSpec MassModel MassSpec.
Import ListNotations.
Local Open Scope R_scope.
#[local] Existing Instance RTrig.

Lemma tri_crs : forall o e, tri o e = / 2 * crs e + (/ 2 * (py o * px (ee e) - px o * py (ee e)) - / 2 * (py o * px (es e) - px o * py (es e))).
Proof. intros [a b] [[c d] [e f]]. unfold tri, crs. cbn [es ee px py]. field. Qed.
(** the same area from every point *)
Theorem area_any_point : forall l o, total (tri o) (ring l) = shoelace l.
Proof.
  intros l o. rewrite (total_ext _ _ _ (tri_crs o)), total_add, (total_ring (fun p => / 2 * (py o * px p - px o * py p))), total_scal.
  unfold shoelace. fold crs. lra.
Qed.
Lemma moment_any_point : forall l o,
  total (fun e => tri o e * ((px o + px (es e) + px (ee e)) / 3)) (ring l) = mx l / 6 /\
  total (fun e => tri o e * ((py o + py (es e) + py (ee e)) / 3)) (ring l) = my l / 6.
Proof.
  intros l o. set (a := px o). set (b := py o). split.
  - set (g := fun p : rpoint => / 6 * (b * (px p * px p) - a * (px p * py p)) + / 6 * a * (b * px p - a * py p)).
    rewrite (total_ext _ (fun e => (/ 6 * ((px (es e) + px (ee e)) * crs e) + (g (ee e) - g (es e))))).
    + rewrite total_add, (total_ring g), total_scal. fold (mx l). lra.
    + intros [[c d] [e f]]. unfold tri, crs, g, a, b. cbn [es ee px py]. field.
  - set (g := fun p : rpoint => / 6 * (b * (px p * py p) - a * (py p * py p)) + / 6 * b * (b * px p - a * py p)).
    rewrite (total_ext _ (fun e => (/ 6 * ((py (es e) + py (ee e)) * crs e) + (g (ee e) - g (es e))))).
    + rewrite total_add, (total_ring g), total_scal. fold (my l). lra.
    + intros [[c d] [e f]]. unfold tri, crs, g, a, b. cbn [es ee px py]. field.
Qed.
Theorem centroid_is_mass_centre : forall s, normalised s -> mass_centre (p_pts s) (p_centroid (N := RNum) s).
Proof.
  intros s Nm o. rewrite area_any_point. destruct (moment_any_point (p_pts s) o) as (E1 & E2). rewrite E1, E2.
  rewrite centroid_ok. cbn [px py]. pose proof (nm_area _ Nm) as Ha. pose proof (nm_positive _ Nm) as Hp. rewrite Ha in *.
  split; [lra|split; field; lra].
Qed.
Theorem mass_centre_unique : forall l c c', mass_centre l c -> mass_centre l c' -> c = c'.
Proof.
  intros l [a b] [a' b'] H H'. destruct (H (Pt 0 0)) as (Z & E1 & E2). destruct (H' (Pt 0 0)) as (_ & E1' & E2').
  cbn [px py] in *. rewrite <- E1' in E1. rewrite <- E2' in E2. apply Rmult_eq_reg_l in E1; [|exact Z]. apply Rmult_eq_reg_l in E2; [|exact Z]. congruence.
Qed.

Lemma tri_flip : forall o a b, tri o (Ed b a) = - tri o (Ed a b).
Proof. intros o [a b] [c d]. unfold tri. cbn [es ee px py]. ring. Qed.
Lemma mass_rev : forall l c, mass_centre l c -> mass_centre (rev l) c.
Proof.
  intros l c H o. destruct (H o) as (Z & E1 & E2).
  assert (T : total (tri o) (ring (rev l)) = - total (tri o) (ring l)) by (rewrite !area_any_point; apply shoelace_rev).
  rewrite T. split; [lra|].
  rewrite !(total_perm _ _ _ (ring_rev l)), !total_map.
  split.
  - transitivity (-1 * total (fun e => tri o e * ((px o + px (es e) + px (ee e)) / 3)) (ring l)); [rewrite <- E1; ring|].
    rewrite <- total_scal. apply total_ext. intros [a b]. unfold e_reverse. cbn [es ee]. rewrite tri_flip. field.
  - transitivity (-1 * total (fun e => tri o e * ((py o + py (es e) + py (ee e)) / 3)) (ring l)); [rewrite <- E2; ring|].
    rewrite <- total_scal. apply total_ext. intros [a b]. unfold e_reverse. cbn [es ee]. rewrite tri_flip. field.
Qed.
Lemma mass_rev_iff : forall l c, mass_centre l c <-> mass_centre (rev l) c.
Proof. intros l c. split; [apply mass_rev|]. intros H. apply mass_rev in H. rewrite rev_involutive in H. exact H. Qed.
Lemma mass_drawn : forall m j o c, sketched None m j o -> (mass_centre (outline j) c <-> mass_centre o c).
Proof.
  intros m j o c H. assert (K : drawn None m (outline j) o) by (destruct j; exact H).
  destruct K as (v' & [(-> & _)|(-> & _)] & ->); [reflexivity|apply mass_rev_iff].
Qed.

Section M.
  Variable M : R.
  Context {X : Extra R} {ED : EqD (dtransf R)} {BS : BSearch}.
  Local Notation NM := (RNumT Reqb M).
  Variable umax : nat.
  Variable pr : parser R.
  Variable zero : R -> bool.
  Hypothesis Ep : @fPI R X = PI.
  Hypothesis Ht : tol_ok (pr_simpl pr).

  Lemma check_spec : forall (items : list (item R * nat)) (bins : list (bin R (dtransf R) * nat)),
    all_centered (N := NM) zero items bins = true <->
    (forall x, In x items -> about_origin zero (p_centroid (N := RNum) (it_shape (fst x)))) /\
    (forall x, In x bins -> about_origin zero (p_centroid (N := RNum) (a_obj (bn_outer (fst x))))).
  Proof.
    intros items bins. unfold all_centered. rewrite forallb_app, andb_true_iff, !forallb_forall. unfold about_origin.
    split; intros (A & B); split.
    - intros x Hx. specialize (A _ (in_map _ _ _ Hx)). apply andb_true_iff in A. exact A.
    - intros x Hx. specialize (B _ (in_map _ _ _ Hx)). apply andb_true_iff in B. exact B.
    - intros c Hc. apply in_map_iff in Hc as (x & <- & Hx). apply andb_true_iff. exact (A x Hx).
    - intros c Hc. apply in_map_iff in Hc as (x & <- & Hx). apply andb_true_iff. exact (B x Hx).
  Qed.
  (** what the check says, in terms of centres of mass *)
  Theorem check_exact : forall (items : list (item R * nat)) (bins : list (bin R (dtransf R) * nat)),
    Forall (fun x => normalised (it_shape (fst x))) items -> Forall (fun x => normalised (a_obj (bn_outer (fst x)))) bins ->
    (all_centered (N := NM) zero items bins = true <->
     (forall x, In x items -> exists c, mass_centre (p_pts (it_shape (fst x))) c /\ about_origin zero c) /\
     (forall x, In x bins -> exists c, mass_centre (p_pts (a_obj (bn_outer (fst x)))) c /\ about_origin zero c)).
  Proof.
    intros items bins Fi Fb. rewrite check_spec. rewrite Forall_forall in Fi, Fb. split; intros (A & B); split; intros x Hx.
    - eexists. split; [apply centroid_is_mass_centre, Fi; exact Hx|exact (A x Hx)].
    - eexists. split; [apply centroid_is_mass_centre, Fb; exact Hx|exact (B x Hx)].
    - destruct (A x Hx) as (c & Hc & Hz). rewrite (mass_centre_unique _ _ _ (centroid_is_mass_centre _ (Fi x Hx)) Hc). exact Hz.
    - destruct (B x Hx) as (c & Hc & Hz). rewrite (mass_centre_unique _ _ _ (centroid_is_mass_centre _ (Fb x Hx)) Hc). exact Hz.
  Qed.
  Lemma nth_pair : forall {A B} (l : list A) (l' : list B), length l = length l' -> forall x, In x l -> exists i y, nth_error l i = Some x /\ nth_error l' i = Some y.
  Proof.
    intros A B l l' L x Hx. apply In_nth_error in Hx as (i & Hi). exists i.
    destruct (nth_error l' i) as [y|] eqn:E; [eauto|]. apply nth_error_None in E. assert (i < length l)%nat by (apply nth_error_Some; congruence). lia.
  Qed.
  (** centring works: whatever is read passes *)
  Theorem read_centred : pr_center pr = true -> zero 0 = true -> forall j ptr inst pres, parse (N := NM) umax pr j ptr = Ok (inst, pres) ->
    all_centered (N := NM) zero (inst_items inst) (bins_of inst) = true.
  Proof.
    intros Hc Hz j ptr inst pres E. apply check_spec.
    destruct (reads_items M umax pr Ep Ht _ _ _ _ E) as (L & K). split.
    - intros x Hx. destruct (nth_pair _ _ L x Hx) as (i & ji & Hi & Hj). destruct (K i ji Hj) as (it & dx & dy & o & Hn & _ & C).
      rewrite Hc in C. assert (Ex : x = (it, ji_demand ji)) by congruence. subst x. cbn [fst]. rewrite C. split; exact Hz.
    - destruct inst as [a|a]; cbn [bins_of]; [|intros x []].
      destruct (reads_bins M umax pr Ep Ht _ _ _ _ E) as (bs & _ & _ & L' & K').
      intros x Hx. destruct (nth_pair _ _ L' x Hx) as (i & jb & Hi & Hj). destruct (K' i jb Hj) as (b & dx & dy & o & hs & zs & Hn & _ & C).
      rewrite Hc in C. assert (Ex : x = (b, match jb_stock jb with Some n => n | None => umax end)) by congruence. subst x. cbn [fst]. rewrite C. split; exact Hz.
  Qed.
  (** without centring, exactly if the file is centred *)
  Theorem read_as_is : pr_center pr = false -> pr_simpl pr = None -> forall j ptr inst pres, parse (N := NM) umax pr j ptr = Ok (inst, pres) ->
    (all_centered (N := NM) zero (inst_items inst) (bins_of inst) = true <->
     file_centred zero (jn_items j) (match jn_bins j with Some bs => bs | None => [] end)).
  Proof.
    intros Hc Hs j ptr inst pres E.
    destruct (reads_items M umax pr Ep Ht _ _ _ _ E) as (L & K). rewrite check_spec.
    assert (Ki : forall i x ji, nth_error (inst_items inst) i = Some x -> nth_error (jn_items j) i = Some ji ->
      mass_centre (outline (ji_shape ji)) (p_centroid (N := RNum) (it_shape (fst x)))).
    { intros i x ji Hi Hj. destruct (K i ji Hj) as (it & dx & dy & o & Hn & Rd & C). rewrite Hc in C. destruct C as (-> & ->).
      assert (Ex : x = (it, ji_demand ji)) by congruence. subst x. cbn [fst].
      pose proof (ir_sketch _ _ _ _ _ _ _ _ Rd) as Sk. rewrite Hs in Sk. apply (mass_drawn _ _ _ _ Sk).
      destruct (ir_shape _ _ _ _ _ _ _ _ Rd) as (P & Md). rewrite (map_ext _ (fun p => p) shift0), map_id in P. rewrite <- P.
      apply centroid_is_mass_centre. exact (md_norm _ Md). }
    assert (Kb : length (bins_of inst) = length (match jn_bins j with Some bs => bs | None => [] end) /\
      forall i x jb, nth_error (bins_of inst) i = Some x -> nth_error (match jn_bins j with Some bs => bs | None => [] end) i = Some jb ->
      mass_centre (outline (jb_shape jb)) (p_centroid (N := RNum) (a_obj (bn_outer (fst x))))).
    { destruct inst as [a|a].
      all: try (destruct (reads_strip M umax pr Ep Ht _ _ _ _ E) as (Eb & _); rewrite Eb; split; [reflexivity|intros [|i] x jb Hi; discriminate]).
      destruct (reads_bins M umax pr Ep Ht _ _ _ _ E) as (bs & Eb & _ & L' & K'). rewrite Eb. split; [exact L'|].
      intros i x jb Hi Hj. destruct (K' i jb Hj) as (b & dx & dy & o & hs & zs & Hn & Rd & C). rewrite Hc in C. destruct C as (-> & ->).
      cbn [bins_of] in Hi. assert (Ex : x = (b, match jb_stock jb with Some n => n | None => umax end)) by congruence. subst x. cbn [fst].
      pose proof (br_sketch _ _ _ _ _ _ _ _ _ Rd) as Sk. rewrite Hs in Sk. apply (mass_drawn _ _ _ _ Sk).
      destruct (br_outer _ _ _ _ _ _ _ _ _ Rd) as (P & Md). rewrite (map_ext _ (fun p => p) shift0), map_id in P. rewrite <- P.
      apply centroid_is_mass_centre. exact (md_norm _ Md). }
    destruct Kb as (L' & Kb). split; intros (A & B); split.
    - intros ji Hj. destruct (nth_pair _ _ (eq_sym L) ji Hj) as (i & x & Hj' & Hi). eexists. split; [exact (Ki i x ji Hi Hj')|]. apply A. exact (nth_error_In _ _ Hi).
    - intros jb Hj. destruct (nth_pair _ _ (eq_sym L') jb Hj) as (i & x & Hj' & Hi). eexists. split; [exact (Kb i x jb Hi Hj')|]. apply B. exact (nth_error_In _ _ Hi).
    - intros x Hx. destruct (nth_pair _ _ L x Hx) as (i & ji & Hi & Hj). destruct (A ji (nth_error_In _ _ Hj)) as (c & Hm & Hz).
      rewrite (mass_centre_unique _ _ _ (Ki i x ji Hi Hj) Hm). exact Hz.
    - intros x Hx. destruct (nth_pair _ _ L' x Hx) as (i & jb & Hi & Hj). destruct (B jb (nth_error_In _ _ Hj)) as (c & Hm & Hz).
      rewrite (mass_centre_unique _ _ _ (Kb i x jb Hi Hj) Hm). exact Hz.
  Qed.
End M.
