(** On a grid, the collision engine in floating point gives the answers of the engine in
    exact arithmetic. *)
From Coq Require Import ZArith Lia Bool List.
From Flocq Require Import Core IEEE754.BinarySingleNaN.
From Verif Require Import Base BaseProofs Num FloatModel FloatArithProofs GeoModel HazardModel QTModel TransfModel HpgModel CdeModel CdeSpec FloatSpec SimProofs FloatGeoProofs.
From Coq Require Import Reals Lra.
From Verif Require Import GeoModel HazardModel QTModel TransfModel CdeModel CdeSpec FloatSpec.
Import ListNotations.
Local Open Scope R_scope.

Section Grid.
  Context {prec emax : Z} (Hp : Prec_gt_0 prec) (Hm : Prec_lt_emax prec emax) (umax : nat).
  Local Notation fl := (binary_float prec emax).
  Variable alm : fl -> fl -> bool.
  #[local] Instance NFl : Num fl := FloatNum prec emax Hp Hm umax alm.
  #[local] Existing Instance RNum.
  Local Notation v := (@B2R prec emax).
  Local Notation impt := (im_point v).
  Local Notation imrc := (im_rect v).
  Variables e B : Z.
  Hypothesis HF : fits (prec := prec) (emax := emax) e B.
  Hypothesis HA : tells_apart e B alm.
  Hypothesis Hp1 : (1 < prec)%Z.

  Definition gcell (l : nat) (r : rect fl) : Prop := box_on (S l) e B r.
  Lemma g_ee f g : edge_on e B f -> edge_on e B g -> ee_collides (im_edge v f) (im_edge v g) = ee_collides f g.
  Proof. destruct HF as (A & C & D & E). apply (ee_grid Hp Hm umax alm e B); try assumption. nia. Qed.
  Lemma g_re r g : rect_on e B r -> edge_on e B g -> re_collides (imrc r) (im_edge v g) = re_collides r g.
  Proof. destruct HF as (A & C & D & E). apply (re_grid Hp Hm umax alm e B); try assumption. nia. Qed.
  Lemma g_rfin (r : rect fl) : rect_on e B r -> rfin r.
  Proof. apply rect_fin. Qed.
  Lemma g_pfin (p : point fl) : point_on e B p -> pfin p.
  Proof. apply point_fin. Qed.
  Lemma g_pt p q : point_on e B p -> point_on e B q -> pt_eq (impt p) (impt q) = pt_eq p q.
  Proof. intros H K. apply pt_fin; apply g_pfin; assumption. Qed.
  Lemma g_rel r s : rect_on e B r -> rect_on e B s -> relation_to (imrc r) (imrc s) = relation_to r s.
  Proof. intros H K. apply rel_fin; apply g_rfin; assumption. Qed.
  Lemma g_rp r p : rect_on e B r -> point_on e B p -> rp_collides (imrc r) (impt p) = rp_collides r p.
  Proof. intros H K. apply rp_fin; [apply g_rfin|apply g_pfin]; assumption. Qed.
  Lemma g_arel r s : rect_on e B r -> rect_on e B s -> almost_relation_to (imrc r) (imrc s) = almost_relation_to r s.
  Proof. intros H K. eapply arel_grid; eassumption. Qed.
  Lemma g_pp s p : poly_on e B s -> point_on e B p -> pp_collides (im_poly v s) (impt p) = pp_collides s p.
  Proof. intros H K. eapply pp_grid; eassumption. Qed.
  Lemma g_cell l r : gcell l r -> rect_on e B r /\ impt (r_centroid r) = r_centroid (imrc r) /\ point_on e B (r_centroid r).
  Proof.
    intros (A & C & D & E).
    destruct (mid_grid Hp Hm umax alm e B HF Hp1 l _ _ A D) as [M1 V1], (mid_grid Hp Hm umax alm e B HF Hp1 l _ _ C E) as [M2 V2].
    split; [|split].
    - split; [|split; [|split]]; eapply coarse; eassumption.
    - unfold im_point, r_centroid. cbn [px py im_rect x_min y_min x_max y_max]. f_equal; assumption.
    - split; eapply coarse; eassumption.
  Qed.
  Lemma min_on E K x y : on_grid E K x -> on_grid E K y -> on_grid E K (fmin x y) /\ v (fmin x y) = Rmin (v x) (v y).
  Proof. apply gmin. Qed.
  Lemma max_on E K x y : on_grid E K x -> on_grid E K y -> on_grid E K (fmax x y) /\ v (fmax x y) = Rmax (v x) (v y).
  Proof. apply gmax. Qed.
  Lemma bbox_on E K (p q : point fl) : point_on E K p -> point_on E K q ->
    rect_on E K (e_bbox (Ed p q)) /\ imrc (e_bbox (Ed p q)) = e_bbox (Ed (impt p) (impt q)).
  Proof.
    intros [A C] [D F]. unfold e_bbox, e_xmin, e_ymin, e_xmax, e_ymax, im_rect, im_point. cbn [es ee px py x_min y_min x_max y_max].
    destruct (min_on _ _ _ _ A D) as [G1 V1], (min_on _ _ _ _ C F) as [G2 V2], (max_on _ _ _ _ A D) as [G3 V3], (max_on _ _ _ _ C F) as [G4 V4].
    split; [split; [|split; [|split]]; assumption|]. f_equal; assumption.
  Qed.
  Lemma g_quad l r : gcell (S l) r -> quadrants (imrc r) = q4map imrc (quadrants r) /\ forall i, gcell l (q4get (quadrants r) i).
  Proof.
    intros H. destruct (g_cell (S l) r H) as (_ & HC & _). destruct H as (A & C & D & E).
    destruct (mid_grid Hp Hm umax alm e B HF Hp1 (S l) _ _ A D) as [M1 _], (mid_grid Hp Hm umax alm e B HF Hp1 (S l) _ _ C E) as [M2 _].
    assert (MO : point_on (e + Z.of_nat (S l)) (B / 2 ^ Z.of_nat (S l)) (r_centroid r)) by (split; assumption).
    apply coarse1 in A, C, D, E; try assumption.
    assert (CO : forall i, point_on (e + Z.of_nat (S l)) (B / 2 ^ Z.of_nat (S l)) (q4get (corners r) i)) by (intros [|[|[|i]]]; split; assumption).
    assert (Q := fun i => bbox_on _ _ _ _ (CO i) MO). split.
    - unfold quadrants. rewrite <- HC. change (corners (imrc r)) with (q4map impt (corners r)). unfold q4map. cbn [qa qb qc qd].
      f_equal; symmetry; [exact (proj2 (Q 0%nat))|exact (proj2 (Q 1%nat))|exact (proj2 (Q 2%nat))|exact (proj2 (Q 3%nat))].
    - intros i. unfold gcell, box_on. destruct i as [|[|[|i]]]; [apply (Q 0%nat)|apply (Q 1%nat)|apply (Q 2%nat)|apply (Q 3%nat)].
  Qed.

  (** *** the engine *)
  Context {D : Type} {ED : EqD D} {BS : BSearch}.
  Hypothesis BU : bsearch_uniform BS.
  Section Engine.
    Variables (bb : rect fl) (statics : list (hazard fl D)) (depth n_cells : nat) (ops : list (op fl D)) (c : cde fl D) (sn : list (snapshot fl D)).
    Hypothesis HB : box_on (S depth) e B bb.
    Hypothesis HS : Forall (hazard_on e B) statics.
    Hypothesis HO : Forall (op_on e B) ops.
    Hypothesis HE : engine bb statics depth n_cells ops = Ok (c, sn).
    Lemma s_ok : okhs (point_on e B) (rect_on e B) statics.
    Proof. intros z Hz. rewrite Forall_forall in HS. exact (HS z Hz). Qed.
    Lemma o_ok : forall o, In o ops -> okop (point_on e B) (rect_on e B) o.
    Proof. intros o Ho. rewrite Forall_forall in HO. specialize (HO o Ho). destruct o; exact HO. Qed.
    Lemma g_engine : engine (imrc bb) (map (im_hazard v) statics) depth 0 (map (im_op v) ops) = Ok (im_cde v c, map (im_snap v) sn) /\
      okc (point_on e B) (rect_on e B) gcell c.
    Proof. exact (engine_im v BU (point_on e B) (rect_on e B) gcell g_pt g_re g_rel g_pp g_cell g_quad bb statics depth n_cells ops c sn HB s_ok o_ok HE). Qed.
    Lemma g_poly s irr : poly_on e B s -> ask (im_cde v c) (AskPoly (im_poly v s) irr) = ask c (AskPoly s irr).
    Proof. exact (ask_poly_im v (point_on e B) (rect_on e B) gcell g_pt g_ee g_re g_rel g_arel g_rp g_pp g_cell c s irr (proj2 g_engine)). Qed.
    Lemma g_edge g irr : edge_on e B g -> ask (im_cde v c) (AskEdge (im_edge v g) irr) = ask c (AskEdge g irr) /\
      ask (im_cde v c) (AskQuery (edge_query (im_edge v g)) irr) = ask c (AskQuery (edge_query g) irr).
    Proof. exact (ask_edge_im v (point_on e B) (rect_on e B) gcell g_pt g_ee g_re g_rp g_cell c g irr (proj2 g_engine)). Qed.
    Lemma g_point p h : point_on e B p -> ask (im_cde v c) (AskPoint (impt p) h) = ask c (AskPoint p h).
    Proof. exact (ask_point_im v (point_on e B) (rect_on e B) gcell g_rp g_cell c p h (proj2 g_engine)). Qed.
    Lemma g_collect s irr buf : poly_on e B s -> collect (im_cde v c) (CollPoly (im_poly v s)) irr buf = collect c (CollPoly s) irr buf.
    Proof. exact (collect_poly_im v (point_on e B) (rect_on e B) gcell g_pt g_ee g_re g_arel g_rp g_pp g_cell c s irr buf (proj2 g_engine)). Qed.
    Lemma g_valid : valid statics ops -> valid (map (im_hazard v) statics) (map (im_op v) ops).
    Proof. exact (valid_im v (point_on e B) (rect_on e B) g_pt statics ops s_ok o_ok). Qed.
  End Engine.
End Grid.
