(** What floating point answers say about the plane. *)
From Coq Require Import ZArith Lia Bool List.
From Flocq Require Import Core IEEE754.BinarySingleNaN.
From Verif Require Import Base BaseProofs Num FloatModel FloatArithProofs GeoModel HazardModel QTModel TransfModel HpgModel CdeModel CdeSpec
  GeoSpec PlaceSpec CdeGeoThmProofs FloatSpec SimProofs FloatGeoProofs FloatGridProofs.
From Coq Require Import Reals Lra.
From Verif Require Import GeoModel HazardModel QTModel TransfModel CdeModel CdeSpec GeoSpec PlaceSpec FloatSpec.
Import ListNotations.
Local Open Scope R_scope.

Section Thm.
  Context {prec emax : Z} (Hp : Prec_gt_0 prec) (Hm : Prec_lt_emax prec emax) (umax : nat).
  Local Notation fl := (binary_float prec emax).
  Variable alm : fl -> fl -> bool.
  #[local] Instance NFl : Num fl := FloatNum prec emax Hp Hm umax alm.
  #[local] Existing Instance RNum.
  Local Notation v := (@B2R prec emax).
  Variables e B : Z.
  Hypothesis HF : fits (prec := prec) (emax := emax) e B.
  Hypothesis HA : tells_apart e B alm.
  Hypothesis Hp1 : (1 < prec)%Z.
  Context {D : Type} {ED : EqD D} {BS : BSearch}.
  Hypothesis BU : bsearch_uniform BS.
  Variables (bb : rect fl) (statics : list (hazard fl D)) (depth n_cells : nat) (ops : list (op fl D)) (c : cde fl D) (sn : list (snapshot fl D)).
  Hypothesis HB : box_on (S depth) e B bb.
  Hypothesis HS : Forall (hazard_on e B) statics.
  Hypothesis HO : Forall (op_on e B) ops.
  Hypothesis HE : engine bb statics depth n_cells ops = Ok (c, sn).
  Local Notation Hg := (g_engine Hp Hm umax alm e B HF HA Hp1 BU bb statics depth n_cells ops c sn HB HS HO HE).

  Lemma same_answers : exists c' sn',
    engine (im_rect v bb) (map (im_hazard v) statics) depth 0 (map (im_op v) ops) = Ok (c', sn') /\
    (forall s irr, poly_on e B s -> ask c (AskPoly s irr) = ask c' (AskPoly (im_poly v s) irr)) /\
    (forall g irr, edge_on e B g -> ask c (AskEdge g irr) = ask c' (AskEdge (im_edge v g) irr) /\
      ask c (AskQuery (edge_query g) irr) = ask c' (AskQuery (edge_query (im_edge v g)) irr)) /\
    (forall p h, point_on e B p -> ask c (AskPoint p h) = ask c' (AskPoint (im_point v p) h)) /\
    (forall s irr buf, poly_on e B s -> collect c (CollPoly s) irr buf = collect c' (CollPoly (im_poly v s)) irr buf).
  Proof.
    exists (im_cde v c), (map (im_snap v) sn). split; [exact (proj1 Hg)|]. split; [|split; [|split]].
    - intros s irr H. symmetry. eapply g_poly; eassumption.
    - intros g irr H. assert (K : edge_on e B g) by exact H.
      destruct (g_edge Hp Hm umax alm e B HF HA Hp1 BU bb statics depth n_cells ops c sn HB HS HO HE g irr K) as [E1 E2]. split; symmetry; assumption.
    - intros p h H. symmetry. eapply g_point; eassumption.
    - intros s irr buf H. symmetry. eapply g_collect; eassumption.
  Qed.

  Local Notation efacts := (map (im_fact v) (facts statics ops)).
  Hypothesis BO : bsearch_ok BS.
  Hypothesis HV : valid statics ops.
  Lemma exact_facts : facts (map (im_hazard v) statics) (map (im_op v) ops) = efacts.
  Proof. apply facts_im. Qed.
  Lemma exact_valid : valid (map (im_hazard v) statics) (map (im_op v) ops).
  Proof. eapply g_valid; eassumption. Qed.
  Lemma float_iff_feasible : framed (im_rect v bb) efacts -> good_facts efacts -> all_active efacts ->
    forall s irr, poly_on e B s -> good_shape (im_poly v s) ->
    (box_inside (im_rect v bb) (im_poly v s) \/ exists f0, In f0 efacts /\ ent_position (f_ent f0) = Exterior /\ ~ In (f_ent f0) irr) ->
    (ask c (AskPoly s irr) = Ok TFalse <-> feasible (im_poly v s) irr efacts).
  Proof.
    intros Fr Go Ac s irr Hs Gs Hx. destruct same_answers as (c' & sn' & E' & P & _). rewrite (P s irr Hs).
    pose proof exact_facts as XF. pose proof exact_valid as XV.
    rewrite <- XF in *. exact (accepted_iff_feasible BO (im_rect v bb) _ depth 0 _ c' sn' XV E' Fr Go Ac (im_poly v s) irr Gs Hx).
  Qed.
  Lemma float_no_missed_crossing : framed (im_rect v bb) efacts -> sound_facts efacts ->
    forall f g h x irr, edge_on e B g -> In f efacts -> ~ In (f_ent f) irr -> In h (ring (p_pts (f_poly f))) ->
    edet (im_edge v g) h <> 0 -> on_seg (im_edge v g) x -> on_seg h x -> in_rect (im_rect v bb) x ->
    ask c (AskQuery (edge_query g) irr) = Ok TTrue.
  Proof.
    intros Fr So f g h x irr Hg. destruct same_answers as (c' & sn' & E' & _ & P & _). rewrite (proj2 (P g irr Hg)).
    pose proof exact_facts as XF. pose proof exact_valid as XV.
    rewrite <- XF in *. exact (no_missed_crossing BO (im_rect v bb) _ depth 0 _ c' sn' XV E' Fr So f (im_edge v g) h x irr).
  Qed.
End Thm.

(** *** the box of the engine *)
Section Box.
  Context {prec emax : Z} (Hp : Prec_gt_0 prec) (Hm : Prec_lt_emax prec emax) (umax : nat).
  Local Notation fl := (binary_float prec emax).
  Variable alm : fl -> fl -> bool.
  #[local] Instance NFb : Num fl := FloatNum prec emax Hp Hm umax alm.
  #[local] Existing Instance RNum.
  Local Notation v := (@B2R prec emax).
  Lemma inflate_grid e K (r : rect fl) : (3 - emax - prec <= e)%Z -> (prec + (e + 1) < emax)%Z -> (0 <= K)%Z -> (6 * K <= 2 ^ prec)%Z -> (1 < prec)%Z ->
    rect_on (e + 1) K r -> im_rect v (inflate_to_square r) = inflate_to_square (im_rect v r) /\ rect_on e (6 * K) (inflate_to_square r).
  Proof.
    intros Hlo Hhi H0 HK Hp1 (A & C & D & F). apply grid_ex in A, C, D, F.
    assert (W : ex (e + 1) (K + K) (fsub (x_max r) (x_min r)) (v (x_max r) - v (x_min r))) by (apply ex_minus; [exact D|exact A|lia|lia|lia]).
    assert (Hh : ex (e + 1) (K + K) (fsub (y_max r) (y_min r)) (v (y_max r) - v (y_min r))) by (apply ex_minus; [exact F|exact C|lia|lia|lia]).
    assert (Hf : forall x y a b, ex (e + 1) (K + K) x a -> ex (e + 1) (K + K) y b -> ex e (4 * K) (fdiv (fsub x y) f2) ((a - b) / (1 + 1))).
    { intros x y a b X Y. apply (ex_half Hp Hm e (4 * K)); [|lia|lia|lia|exact Hp1].
      replace (4 * K)%Z with (K + K + (K + K))%Z by lia. apply ex_minus; [exact X|exact Y|lia|lia|lia]. }
    assert (Z0 : ex e (4 * K) (f0 : fl) 0) by (split; [reflexivity|split; [reflexivity|exists 0%Z; split; [lra|lia]]]).
    assert (Up : forall (x : fl) a, ex (e + 1) K x a -> ex e (2 * K) x a).
    { intros x a X. apply ex_fine in X; [|lia]. replace (K * 2 ^ 1)%Z with (2 * K)%Z in X by (change (2 ^ 1)%Z with 2%Z; lia). exact X. }
    apply Up in A, C, D, F.
    assert (Sb : forall x d a b, ex e (2 * K) x a -> ex e (4 * K) d b -> ex e (6 * K) (fsub x d) (a - b)).
    { intros x d a b X Y. replace (6 * K)%Z with (2 * K + 4 * K)%Z by lia. apply ex_minus; [exact X|exact Y|lia|lia|lia]. }
    assert (Ad : forall x d a b, ex e (2 * K) x a -> ex e (4 * K) d b -> ex e (6 * K) (fadd x d) (a + b)).
    { intros x d a b X Y. replace (6 * K)%Z with (2 * K + 4 * K)%Z by lia. apply ex_plus; [exact X|exact Y|lia|lia|lia]. }
    assert (Go : forall dx dy a b, ex e (4 * K) dx a -> ex e (4 * K) dy b ->
      im_rect v (Rc (fsub (x_min r) dx) (fsub (y_min r) dy) (fadd (x_max r) dx) (fadd (y_max r) dy)) = Rc (v (x_min r) - a) (v (y_min r) - b) (v (x_max r) + a) (v (y_max r) + b) /\
      rect_on e (6 * K) (Rc (fsub (x_min r) dx) (fsub (y_min r) dy) (fadd (x_max r) dx) (fadd (y_max r) dy))).
    { intros dx dy a b X Y.
      destruct (ex_grid _ _ _ _ (Sb _ _ _ _ A X)) as [G1 V1], (ex_grid _ _ _ _ (Sb _ _ _ _ C Y)) as [G2 V2],
        (ex_grid _ _ _ _ (Ad _ _ _ _ D X)) as [G3 V3], (ex_grid _ _ _ _ (Ad _ _ _ _ F Y)) as [G4 V4].
      split; [unfold im_rect; cbn [x_min y_min x_max y_max]; f_equal; assumption|split; [|split; [|split]]; assumption]. }
    unfold inflate_to_square. cbn [im_rect x_min y_min x_max y_max].
    assert (L1 : flt (fsub (y_max r) (y_min r)) (fsub (x_max r) (x_min r)) = Rltb (v (y_max r) - v (y_min r)) (v (x_max r) - v (x_min r)))
      by exact (fin_lt Hp Hm umax alm _ _ _ _ (ex_fin _ _ _ _ Hh) (ex_fin _ _ _ _ W)).
    assert (L2 : flt (fsub (x_max r) (x_min r)) (fsub (y_max r) (y_min r)) = Rltb (v (x_max r) - v (x_min r)) (v (y_max r) - v (y_min r)))
      by exact (fin_lt Hp Hm umax alm _ _ _ _ (ex_fin _ _ _ _ W) (ex_fin _ _ _ _ Hh)).
    rewrite L1, L2.
    change (@flt R RNum) with Rltb. change (@fsub R RNum) with Rminus. change (@fadd R RNum) with Rplus. change (@fdiv R RNum) with Rdiv. change (@f0 R RNum) with 0. change (@f2 R RNum) with (1 + 1).
    destruct (Rltb (v (y_max r) - v (y_min r)) (v (x_max r) - v (x_min r))); [apply Go; [exact Z0|apply Hf; assumption]|].
    destruct (Rltb (v (x_max r) - v (x_min r)) (v (y_max r) - v (y_min r))); (apply Go; [|exact Z0]); [apply Hf; assumption|exact Z0].
  Qed.
  Lemma box_tests (r s : rect fl) p : rfin r -> rfin s -> pfin p ->
    relation_to (im_rect v r) (im_rect v s) = relation_to r s /\ rr_collides (im_rect v r) (im_rect v s) = rr_collides r s /\
    rp_collides (im_rect v r) (im_point v p) = rp_collides r p.
  Proof. intros Hr Hs Hq. split; [apply rel_fin; assumption|]. split; [apply rr_fin; assumption|apply rp_fin; assumption]. Qed.
End Box.
