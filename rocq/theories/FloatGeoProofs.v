(** On a grid, the geometric tests in floating point are those in exact arithmetic. *)
From Coq Require Import ZArith Reals Lia Lra Bool List.
From Flocq Require Import Core IEEE754.BinarySingleNaN.
From Verif Require Import Base BaseProofs Num FloatModel FloatArithProofs GeoModel FloatSpec SimProofs.
Import ListNotations.
Local Open Scope R_scope.

Section Geo.
  Context {prec emax : Z} (Hp : Prec_gt_0 prec) (Hm : Prec_lt_emax prec emax) (umax : nat).
  Local Notation fl := (binary_float prec emax).
  Variable alm : fl -> fl -> bool.
  Local Notation emin := (3 - emax - prec)%Z.
  #[local] Instance NFl : Num fl := FloatNum prec emax Hp Hm umax alm.
  #[local] Existing Instance RNum.
  Local Notation v := (@B2R prec emax).
  Local Notation impt := (im_point v).
  Local Notation imed := (im_edge v).
  Local Notation imrc := (im_rect v).

  (** finite numbers *)
  Definition fin (x : fl) (r : R) : Prop := is_finite x = true /\ v x = r.
  Lemma fin_min x y r s : fin x r -> fin y s -> fin (fmin x y) (Rmin r s).
  Proof. intros [F <-] [G <-]. destruct (fmin_fin x y F G) as (A & B & _). split; assumption. Qed.
  Lemma fin_max x y r s : fin x r -> fin y s -> fin (fmax x y) (Rmax r s).
  Proof. intros [F <-] [G <-]. destruct (fmax_fin x y F G) as (A & B & _). split; assumption. Qed.
  Lemma fin_lt x y r s : fin x r -> fin y s -> flt x y = Rltb r s.
  Proof. intros [F <-] [G <-]. apply flt_fin; assumption. Qed.
  Lemma fin_le x y r s : fin x r -> fin y s -> fle x y = Rleb r s.
  Proof. intros [F <-] [G <-]. apply fle_fin; assumption. Qed.
  Lemma fin_eq x y r s : fin x r -> fin y s -> feq x y = Reqb r s.
  Proof. intros [F <-] [G <-]. apply feq_fin; assumption. Qed.
  Lemma fin_0 : fin f0 0.
  Proof. split; reflexivity. Qed.
  Lemma fin_1 : fin f1 1.
  Proof. split; [apply is_finite_Bone|apply Bone_correct]. Qed.
  Lemma ex_fin e B x r : ex e B x r -> fin x r.
  Proof. intros (F & E & _). split; assumption. Qed.
  Lemma grid_ex e B x : on_grid e B x -> ex e B x (v x).
  Proof. intros (F & n & E & H). split; [exact F|]. split; [reflexivity|]. exists n. auto. Qed.
  Lemma ex_grid e B x r : ex e B x r -> on_grid e B x /\ v x = r.
  Proof. intros (F & E & n & En & H). split; [|exact E]. split; [exact F|]. exists n. rewrite E. auto. Qed.
  Lemma grid_fin e B x : on_grid e B x -> fin x (v x).
  Proof. intros (F & _). split; [exact F|reflexivity]. Qed.

  (** *** finite numbers: the tests made of comparisons only *)
  Lemma fv x : is_finite x = true -> fin x (v x).
  Proof. intros H. split; [exact H|reflexivity]. Qed.
  Lemma pt_fin p q : pfin p -> pfin q -> pt_eq (impt p) (impt q) = pt_eq p q.
  Proof.
    intros [A B] [C D]. unfold pt_eq. cbn [px py im_point].
    rewrite (fin_eq _ _ _ _ (fv _ A) (fv _ C)), (fin_eq _ _ _ _ (fv _ B) (fv _ D)). reflexivity.
  Qed.
  Lemma rp_fin r p : rfin r -> pfin p -> rp_collides (imrc r) (impt p) = rp_collides r p.
  Proof.
    intros (A & B & C & D) [P Q]. unfold rp_collides. cbn [px py im_point im_rect x_min y_min x_max y_max].
    rewrite (fin_le _ _ _ _ (fv _ A) (fv _ P)), (fin_le _ _ _ _ (fv _ P) (fv _ C)), (fin_le _ _ _ _ (fv _ B) (fv _ Q)), (fin_le _ _ _ _ (fv _ Q) (fv _ D)). reflexivity.
  Qed.
  Lemma rr_fin r s : rfin r -> rfin s -> rr_collides (imrc r) (imrc s) = rr_collides r s.
  Proof.
    intros (A & B & C & D) (P & Q & U & V). unfold rr_collides. cbn [im_rect x_min y_min x_max y_max].
    rewrite (fin_le _ _ _ _ (fin_max _ _ _ _ (fv _ A) (fv _ P)) (fin_min _ _ _ _ (fv _ C) (fv _ U))).
    rewrite (fin_le _ _ _ _ (fin_max _ _ _ _ (fv _ B) (fv _ Q)) (fin_min _ _ _ _ (fv _ D) (fv _ V))). reflexivity.
  Qed.
  Lemma rel_fin r s : rfin r -> rfin s -> relation_to (imrc r) (imrc s) = relation_to r s.
  Proof.
    intros Hr Hs. unfold relation_to. rewrite (rr_fin r s Hr Hs). destruct Hr as (A & B & C & D), Hs as (P & Q & U & V). cbn [im_rect x_min y_min x_max y_max].
    rewrite (fin_le _ _ _ _ (fv _ A) (fv _ P)), (fin_le _ _ _ _ (fv _ B) (fv _ Q)), (fin_le _ _ _ _ (fv _ U) (fv _ C)), (fin_le _ _ _ _ (fv _ V) (fv _ D)),
      (fin_le _ _ _ _ (fv _ P) (fv _ A)), (fin_le _ _ _ _ (fv _ Q) (fv _ B)), (fin_le _ _ _ _ (fv _ C) (fv _ U)), (fin_le _ _ _ _ (fv _ D) (fv _ V)). reflexivity.
  Qed.

  (** *** numbers on the grid *)
  Section OnGrid.
    Variables e B : Z.
    Hypothesis Hlo : (emin <= 2 * e)%Z.
    Hypothesis Hhi : (2 * e + prec < emax)%Z.
    Hypothesis HB0 : (0 <= B)%Z.
    Hypothesis HB : (8 * (B * B) <= 2 ^ (prec - 1))%Z.

    Lemma prec_small : (1 < prec)%Z \/ B = 0%Z.
    Proof.
      destruct (Z.le_gt_cases prec 1) as [H|H]; [right|left; exact H].
      assert (prec - 1 <= 0)%Z by lia. assert (2 ^ (prec - 1) <= 1)%Z.
      { destruct (Z.eq_dec (prec - 1) 0) as [->|]; [cbn; lia|rewrite Z.pow_neg_r by lia; lia]. }
      nia.
    Qed.
    Hypothesis Hp1 : (1 < prec)%Z.
    Lemma e_lo : (emin <= e)%Z.
    Proof. unfold Prec_lt_emax, Prec_gt_0 in *. lia. Qed.
    Lemma e_hi : (prec + e < emax)%Z.
    Proof. unfold Prec_lt_emax, Prec_gt_0 in *. lia. Qed.
    Lemma two_prec : (2 ^ prec = 2 * 2 ^ (prec - 1))%Z.
    Proof. replace prec with (1 + (prec - 1))%Z at 1 by lia. rewrite Z.pow_add_r by lia. reflexivity. Qed.
    Lemma B2 : (2 * B <= 2 ^ prec)%Z /\ (4 * (B * B) <= 2 ^ prec)%Z /\ (8 * (B * B) <= 2 ^ prec)%Z.
    Proof. rewrite two_prec. assert (0 < 2 ^ (prec - 1))%Z by (apply Z.pow_pos_nonneg; lia). nia. Qed.
    (** a difference, a product of differences, a cross product *)
    Lemma ex_diff x y r s : ex e B x r -> ex e B y s -> ex e (2 * B) (fsub x y) (r - s).
    Proof.
      intros H1 H2. replace (2 * B)%Z with (B + B)%Z by lia. apply ex_minus; [exact H1|exact H2|apply e_lo|apply e_hi|]. pose proof B2. lia.
    Qed.
    Lemma ex_prod x y r s : ex e (2 * B) x r -> ex e (2 * B) y s -> ex (e + e) (4 * (B * B)) (fmul x y) (r * s).
    Proof.
      intros H1 H2. replace (4 * (B * B))%Z with (2 * B * (2 * B))%Z by ring. apply ex_mult; [exact H1|exact H2|lia|lia|]. pose proof B2. lia.
    Qed.
    Lemma ex_cross a b c d a' b' c' d' : ex e (2 * B) a a' -> ex e (2 * B) b b' -> ex e (2 * B) c c' -> ex e (2 * B) d d' ->
      ex (e + e) (8 * (B * B)) (fsub (fmul a b) (fmul c d)) (a' * b' - c' * d').
    Proof.
      intros. replace (8 * (B * B))%Z with (4 * (B * B) + 4 * (B * B))%Z by ring.
      apply ex_minus; [apply ex_prod; assumption|apply ex_prod; assumption|lia|lia|]. pose proof B2. lia.
    Qed.
    Lemma ee_grid f g : edge_on e B f -> edge_on e B g -> ee_collides (imed f) (imed g) = ee_collides f g.
    Proof.
      destruct f as [[x1 y1] [x2 y2]], g as [[x3 y3] [x4 y4]]. intros [[X1 Y1] [X2 Y2]] [[X3 Y3] [X4 Y4]]. cbn [px py es ee] in *.
      unfold ee_collides, edge_intersection, e_xmax, e_xmin, e_ymax, e_ymin, im_edge, im_point. cbn [px py es ee].
      set (a1 := v x1). set (b1 := v y1). set (a2 := v x2). set (b2 := v y2). set (a3 := v x3). set (b3 := v y3). set (a4 := v x4). set (b4 := v y4).
      pose proof (grid_fin _ _ _ X1) as fx1. pose proof (grid_fin _ _ _ X2) as fx2. pose proof (grid_fin _ _ _ X3) as fx3. pose proof (grid_fin _ _ _ X4) as fx4.
      pose proof (grid_fin _ _ _ Y1) as fy1. pose proof (grid_fin _ _ _ Y2) as fy2. pose proof (grid_fin _ _ _ Y3) as fy3. pose proof (grid_fin _ _ _ Y4) as fy4.
      rewrite (fin_lt _ _ _ _ (fin_min _ _ _ _ (fin_max _ _ _ _ fx1 fx2) (fin_max _ _ _ _ fx3 fx4)) (fin_max _ _ _ _ (fin_min _ _ _ _ fx1 fx2) (fin_min _ _ _ _ fx3 fx4))).
      rewrite (fin_lt _ _ _ _ (fin_min _ _ _ _ (fin_max _ _ _ _ fy1 fy2) (fin_max _ _ _ _ fy3 fy4)) (fin_max _ _ _ _ (fin_min _ _ _ _ fy1 fy2) (fin_min _ _ _ _ fy3 fy4))).
      apply grid_ex in X1, X2, X3, X4, Y1, Y2, Y3, Y4.
      assert (C := fun x y (H : ex e B x (v x)) (K : ex e B y (v y)) => ex_diff x y _ _ H K).
      pose proof (ex_cross _ _ _ _ _ _ _ _ (C _ _ X2 X4) (C _ _ Y4 Y3) (C _ _ Y2 Y4) (C _ _ X4 X3)) as TN.
      pose proof (ex_cross _ _ _ _ _ _ _ _ (C _ _ X2 X1) (C _ _ Y4 Y3) (C _ _ Y2 Y1) (C _ _ X4 X3)) as TD.
      pose proof (ex_cross _ _ _ _ _ _ _ _ (C _ _ X2 X4) (C _ _ Y2 Y1) (C _ _ Y2 Y4) (C _ _ X2 X1)) as UN.
      rewrite (fin_eq _ _ _ _ (ex_fin _ _ _ _ TD) fin_0).
      change (@flt R RNum) with Rltb. change (@feq R RNum) with Reqb. change (@fle R RNum) with Rleb. change (@fmin R RNum) with Rmin. change (@fmax R RNum) with Rmax.
      change (@fsub R RNum) with Rminus. change (@fmul R RNum) with Rmult. change (@fdiv R RNum) with Rdiv. change (@f0 R RNum) with 0. change (@f1 R RNum) with 1.
      fold a1 b1 a2 b2 a3 b3 a4 b4 in TN, TD, UN. fold a1 b1 a2 b2 a3 b3 a4 b4.
      destruct (Rltb (Rmin _ _) _ || Rltb (Rmin (Rmax b1 b2) _) _); [reflexivity|].
      destruct (Reqb ((a2 - a1) * (b4 - b3) - (b2 - b1) * (a4 - a3)) 0) eqn:Z0; [reflexivity|]. cbn [orb].
      assert (NZ : (a2 - a1) * (b4 - b3) - (b2 - b1) * (a4 - a3) <> 0) by (intros Ez; rewrite Ez in Z0; unfold Reqb in Z0; destruct (Req_EM_T 0 0); congruence).
      assert (QB : (8 * (B * B) <= 2 ^ (prec - 1))%Z) by exact HB.
      assert (EL : (emin <= e + e)%Z) by lia.
      destruct (quot_cmp Hp Hm (e + e) _ _ _ _ _ TN TD EL NZ QB Hp1) as (_ & T0 & T1).
      destruct (quot_cmp Hp Hm (e + e) _ _ _ _ _ UN TD EL NZ QB Hp1) as (_ & U0 & U1).
      change (@fle fl NFl) with (@Bleb prec emax). change (@f0 fl NFl) with (@B754_zero prec emax false). change (@f1 fl NFl) with (@Bone prec emax Hp Hm).
      change (@fdiv fl NFl) with (@Bdiv prec emax Hp Hm mode_NE) in *.
      rewrite T0, T1, U0, U1. destruct (_ && _ && _); reflexivity.
    Qed.
    Lemma per_grid p g : point_on e B p -> edge_on e B g -> point_edge_relation (impt p) (imed g) = point_edge_relation p g.
    Proof.
      destruct p as [x y], g as [[x1 y1] [x2 y2]]. intros [X Y] [[X1 Y1] [X2 Y2]]. cbn [px py es ee] in *.
      apply grid_ex in X, X1, X2, Y, Y1, Y2.
      assert (C := fun x y (H : ex e B x (v x)) (K : ex e B y (v y)) => ex_diff x y _ _ H K).
      pose proof (ex_cross _ _ _ _ _ _ _ _ (C _ _ X X1) (C _ _ Y2 Y1) (C _ _ Y Y1) (C _ _ X2 X1)) as V.
      unfold point_edge_relation, fcmp. cbn [px py es ee im_point im_edge].
      rewrite (fin_lt _ _ _ _ (ex_fin _ _ _ _ V) fin_0), (fin_eq _ _ _ _ (ex_fin _ _ _ _ V) fin_0). reflexivity.
    Qed.
    Lemma corner_on (r : rect fl) i : rect_on e B r -> point_on e B (q4get (corners r) i).
    Proof. intros (A & C & D & E). destruct i as [|[|[|i]]]; split; assumption. Qed.
    Lemma rect_fin (r : rect fl) : rect_on e B r -> rfin r.
    Proof. intros (A & C & D & E). repeat split; [apply A|apply C|apply D|apply E]. Qed.
    Lemma point_fin (p : point fl) : point_on e B p -> pfin p.
    Proof. intros (A & C). split; [apply A|apply C]. Qed.
    Lemma re_grid (r : rect fl) (g : edge fl) : rect_on e B r -> edge_on e B g -> re_collides (imrc r) (imed g) = re_collides r g.
    Proof.
      intros Hr Hg. unfold re_collides.
      assert (Hbox : (flt (e_xmax (imed g)) (x_min (imrc r)) || flt (x_max (imrc r)) (e_xmin (imed g)) || flt (e_ymax (imed g)) (y_min (imrc r)) || flt (y_max (imrc r)) (e_ymin (imed g)))%bool =
                     (flt (e_xmax g) (x_min r) || flt (x_max r) (e_xmin g) || flt (e_ymax g) (y_min r) || flt (y_max r) (e_ymin g))%bool).
      { destruct Hg as [[X1 Y1] [X2 Y2]], Hr as (A & C & D & E). unfold e_xmax, e_xmin, e_ymax, e_ymin. cbn [px py es ee im_point im_edge im_rect x_min y_min x_max y_max].
        apply grid_fin in X1, X2, Y1, Y2, A, C, D, E.
        rewrite (fin_lt _ _ _ _ (fin_max _ _ _ _ X1 X2) A), (fin_lt _ _ _ _ D (fin_min _ _ _ _ X1 X2)), (fin_lt _ _ _ _ (fin_max _ _ _ _ Y1 Y2) C), (fin_lt _ _ _ _ E (fin_min _ _ _ _ Y1 Y2)). reflexivity. }
      rewrite Hbox. clear Hbox. match goal with |- (if ?b then _ else _) = _ => destruct b end; [reflexivity|].
      change (es (imed g)) with (impt (es g)). change (ee (imed g)) with (impt (ee g)).
      rewrite !rp_fin by (apply rect_fin, Hr || apply point_fin, Hg). match goal with |- (if ?b then _ else _) = _ => destruct b end; [reflexivity|].
      replace (corners (imrc r)) with (q4map impt (corners r)) by reflexivity.
      replace (q4map (fun c => point_edge_relation c (imed g)) (q4map impt (corners r))) with (q4map (fun c => point_edge_relation c g) (corners r)).
      2: { unfold q4map. cbn [qa qb qc qd]. rewrite !per_grid; [reflexivity|..]; try exact Hg; [apply (corner_on r 3)|apply (corner_on r 2)|apply (corner_on r 1)|apply (corner_on r 0)]; exact Hr. }
      match goal with |- (if ?b then _ else _) = _ => destruct b end; [reflexivity|].
      replace (r_edges (imrc r)) with (map imed (r_edges r)) by reflexivity.
      apply existsb_im. intros f Hf. apply ee_grid; [exact Hg|].
      unfold r_edges in Hf. destruct Hf as [<-|[<-|[<-|[<-|[]]]]]; split; cbn [es ee]; [apply (corner_on r 0)|apply (corner_on r 1)|apply (corner_on r 1)|apply (corner_on r 2)|apply (corner_on r 2)|apply (corner_on r 3)|apply (corner_on r 3)|apply (corner_on r 0)]; exact Hr.
    Qed.
  End OnGrid.

  (** *** tolerant comparisons, point in polygon, quadrants *)
  Section Fits.
    Variables e B : Z.
    Hypothesis HF : fits (prec := prec) (emax := emax) e B.
    Hypothesis HA : tells_apart e B alm.
    Hypothesis Hp1 : (1 < prec)%Z.
    Lemma lo : (emin <= 2 * e)%Z. Proof. apply HF. Qed.
    Lemma hi : (2 * e + prec < emax)%Z. Proof. apply HF. Qed.
    Lemma b0 : (0 <= B)%Z. Proof. apply HF. Qed.
    Lemma b8 : (8 * (B * B) <= 2 ^ (prec - 1))%Z. Proof. destruct HF as (_ & _ & H0 & H). nia. Qed.
    Lemma b3 : (8 * (3 * B * (3 * B)) <= 2 ^ (prec - 1))%Z. Proof. destruct HF as (_ & _ & H0 & H). nia. Qed.
    Lemma elo : (emin <= e)%Z. Proof. pose proof lo. pose proof hi. unfold Prec_lt_emax, Prec_gt_0 in *. lia. Qed.
    Lemma ehi : (prec + e < emax)%Z. Proof. pose proof lo. pose proof hi. unfold Prec_lt_emax, Prec_gt_0 in *. lia. Qed.
    Lemma alm_grid x y : on_grid e B x -> on_grid e B y -> falmost x y = Reqb (v x) (v y).
    Proof.
      intros X Y. change (falmost x y) with (alm x y). pose proof (HA x y X Y) as H. unfold Reqb.
      destruct (Req_EM_T _ _) as [E|E]; [apply H, E|]. destruct (alm x y); [|reflexivity]. exfalso. apply E, H. reflexivity.
    Qed.
    Lemma alt_grid x y : on_grid e B x -> on_grid e B y -> fpa_lt x y = fpa_lt (v x) (v y).
    Proof. intros X Y. unfold fpa_lt. rewrite (alm_grid x y X Y), (fin_lt x y _ _ (grid_fin _ _ _ X) (grid_fin _ _ _ Y)). reflexivity. Qed.
    Lemma agt_grid x y : on_grid e B x -> on_grid e B y -> fpa_gt x y = fpa_gt (v x) (v y).
    Proof. intros X Y. unfold fpa_gt. rewrite (alm_grid x y X Y), (fin_lt y x _ _ (grid_fin _ _ _ Y) (grid_fin _ _ _ X)). reflexivity. Qed.
    Lemma ale_grid x y : on_grid e B x -> on_grid e B y -> fpa_le x y = fpa_le (v x) (v y).
    Proof. intros X Y. unfold fpa_le. rewrite (alm_grid x y X Y), (fin_lt x y _ _ (grid_fin _ _ _ X) (grid_fin _ _ _ Y)). reflexivity. Qed.
    Lemma age_grid x y : on_grid e B x -> on_grid e B y -> fpa_ge x y = fpa_ge (v x) (v y).
    Proof. intros X Y. unfold fpa_ge. rewrite (alm_grid x y X Y), (fin_lt y x _ _ (grid_fin _ _ _ Y) (grid_fin _ _ _ X)). reflexivity. Qed.
    Lemma aeq_grid x y : on_grid e B x -> on_grid e B y -> fpa_eq x y = fpa_eq (v x) (v y).
    Proof. intros X Y. apply (alm_grid x y X Y). Qed.
    Lemma gmin x y : on_grid e B x -> on_grid e B y -> on_grid e B (fmin x y) /\ v (fmin x y) = Rmin (v x) (v y).
    Proof.
      intros X Y. destruct (fmin_fin x y (proj1 X) (proj1 Y)) as (_ & E & [H|H]); (split; [|exact E]); change (fmin x y) with (fl_min prec emax x y); rewrite H; assumption.
    Qed.
    Lemma gmax x y : on_grid e B x -> on_grid e B y -> on_grid e B (fmax x y) /\ v (fmax x y) = Rmax (v x) (v y).
    Proof.
      intros X Y. destruct (fmax_fin x y (proj1 X) (proj1 Y)) as (_ & E & [H|H]); (split; [|exact E]); change (fmax x y) with (fl_max prec emax x y); rewrite H; assumption.
    Qed.
    Lemma arel_grid r s : rect_on e B r -> rect_on e B s -> almost_relation_to (imrc r) (imrc s) = almost_relation_to r s.
    Proof.
      intros (A & C & D & E) (P & Q & U & V). unfold almost_relation_to, rr_almost_collides. cbn [im_rect x_min y_min x_max y_max].
      destruct (gmax _ _ A P) as [G1 V1], (gmin _ _ D U) as [G2 V2], (gmax _ _ C Q) as [G3 V3], (gmin _ _ E V) as [G4 V4].
      rewrite (ale_grid _ _ G1 G2), (ale_grid _ _ G3 G4), V1, V2, V3, V4.
      rewrite (ale_grid _ _ A P), (ale_grid _ _ C Q), (age_grid _ _ D U), (age_grid _ _ E V), (age_grid _ _ A P), (age_grid _ _ C Q), (ale_grid _ _ D U), (ale_grid _ _ E V). reflexivity.
    Qed.
    Lemma grid_le (x : fl) B' : on_grid e B x -> (B <= B')%Z -> on_grid e B' x.
    Proof. intros (F & n & E & H) HB. split; [exact F|]. exists n. split; [exact E|lia]. Qed.
    Lemma ray_grid (bb : rect fl) (p : point fl) (g : edge fl) : rect_on e B bb -> point_on e B p -> edge_on e B g -> ray_counts (imrc bb) (impt p) (imed g) = ray_counts bb p g.
    Proof.
      intros (A & C & D & E) [X Y] [[X1 Y1] [X2 Y2]]. unfold ray_counts. cbn [px py es ee im_point im_edge].
      rewrite (aeq_grid _ _ Y1 Y), (agt_grid _ _ X1 X), (aeq_grid _ _ Y2 Y), (agt_grid _ _ X2 X), (alt_grid _ _ Y1 Y), (alt_grid _ _ Y2 Y).
      match goal with |- (if ?b then _ else _) = _ => destruct b end; [reflexivity|].
      pose proof b0 as Hb0. assert (Hl := lo). assert (Hh := hi). assert (H8 := b8).
      assert (W : ex e (2 * B) (fsub (x_max bb) (x_min bb)) (v (x_max bb) - v (x_min bb))) by (apply (ex_diff e B lo hi b0 b8 Hp1); apply grid_ex; assumption).
      assert (S : ex e (3 * B) (fadd (x_max bb) (fsub (x_max bb) (x_min bb))) (v (x_max bb) + (v (x_max bb) - v (x_min bb)))).
      { replace (3 * B)%Z with (B + 2 * B)%Z by lia. apply ex_plus; [apply grid_ex; assumption|exact W|exact elo|exact ehi|].
        rewrite (two_prec Hp1). assert (0 < 2 ^ (prec - 1))%Z by (apply Z.pow_pos_nonneg; lia). destruct HF as (_ & _ & _ & H72). nia. }
      apply ex_grid in S. destruct S as [S1 S2].
      assert (L3 : forall x, on_grid e B x -> on_grid e (3 * B) x) by (intros x Hx; apply (grid_le x (3 * B) Hx); lia).
      rewrite <- (ee_grid e (3 * B) lo hi ltac:(lia) b3 Hp1 (Ed p (Pt (fadd (x_max bb) (r_width bb)) (py p))) g).
      - unfold im_edge, im_point. cbn [es ee px py]. unfold r_width at 2. rewrite S2. reflexivity.
      - split; split; cbn [es ee px py]; try (apply L3; assumption). exact S1.
      - split; split; apply L3; assumption.
    Qed.
    Lemma poly_pts (s : poly fl) : poly_on e B s -> Forall (point_on e B) (p_pts s). Proof. intros H. apply H. Qed.
    Lemma gpt (p q : point fl) : point_on e B p -> point_on e B q -> pt_eq (impt p) (impt q) = pt_eq p q.
    Proof. intros H K. apply pt_fin; eapply point_fin; eassumption. Qed.
    Lemma pp_grid (s : poly fl) (p : point fl) : poly_on e B s -> point_on e B p -> pp_collides (im_poly v s) (impt p) = pp_collides s p.
    Proof.
      intros Hs Hq. unfold pp_collides. cbn [p_bbox im_poly].
      rewrite rp_fin by (eapply rect_fin, Hs || eapply point_fin, Hq). destruct (rp_collides _ p); [|reflexivity].
      rewrite (idx_im v s).
      match goal with |- rbind ?X _ = rbind ?Y _ => assert (E : X = Y) end.
      { match goal with |- rfold ?f' ?l ?a = rfold ?f _ _ => destruct (rfold_sim (fun n : nat => n) (fun i : nat => i) (fun _ => True) f f' l a Logic.I) as [R _] end.
        - intros n i _ _. split; [|intros; exact Logic.I].
          change (Poly (map impt (p_pts s)) (imrc (p_bbox s)) (v (p_area s)) (v (p_diam s)) (im_circle v (p_poi s)) (option_map (im_surr v) (p_surr s))) with (im_poly v s).
          rewrite (edge_im v (point_on e B) (rect_on e B) gpt s i Hs).
          destruct (get_edge s i) as [g|] eqn:Eg; cbn [rmap rbind]; [|reflexivity].
          rewrite ray_grid; [reflexivity|apply Hs|exact Hq|]. exact (edge_ok (point_on e B) (rect_on e B) s i g Hs Eg).
        - rewrite map_idl in R. rewrite R. match goal with |- rmap _ ?Y = _ => destruct Y; reflexivity end. }
      rewrite E. reflexivity.
    Qed.

    (** *** cells *)
    Lemma box_bound k : (0 <= B / 2 ^ Z.of_nat k)%Z /\ (B / 2 ^ Z.of_nat k * 2 ^ Z.of_nat k <= B)%Z.
    Proof.
      pose proof b0. assert (0 < 2 ^ Z.of_nat k)%Z by (apply Z.pow_pos_nonneg; lia). split; [apply Z.div_pos; lia|].
      rewrite Z.mul_comm. apply Z.mul_div_le. lia.
    Qed.
    Lemma coarse k (x : fl) : on_grid (e + Z.of_nat k) (B / 2 ^ Z.of_nat k) x -> on_grid e B x.
    Proof.
      intros H. apply grid_ex in H. apply ex_fine in H; [|lia]. eapply ex_le in H; [|apply box_bound]. apply ex_grid in H. apply H.
    Qed.
    Lemma coarse1 k (x : fl) : on_grid (e + Z.of_nat (S k)) (B / 2 ^ Z.of_nat (S k)) x -> on_grid (e + Z.of_nat k) (B / 2 ^ Z.of_nat k) x.
    Proof.
      intros H. replace (e + Z.of_nat (S k))%Z with (e + Z.of_nat k + 1)%Z in H by lia. apply grid_ex in H. apply ex_fine in H; [|lia].
      eapply ex_le in H; [apply ex_grid in H; apply H|]. rewrite Nat2Z.inj_succ, Z.pow_succ_r by lia.
      assert (0 < 2 ^ Z.of_nat k)%Z by (apply Z.pow_pos_nonneg; lia). rewrite Z.mul_comm with (n := 2%Z), <- Z.div_div by lia.
      change (2 ^ 1)%Z with 2%Z. rewrite Z.mul_comm. apply Z.mul_div_le. lia.
    Qed.
    (** Adding and halving are exact on the fine grid; the result is on the coarse one. *)
    Lemma mid_grid k (x y : fl) : on_grid (e + Z.of_nat (S k)) (B / 2 ^ Z.of_nat (S k)) x -> on_grid (e + Z.of_nat (S k)) (B / 2 ^ Z.of_nat (S k)) y ->
      on_grid (e + Z.of_nat k) (B / 2 ^ Z.of_nat k) (fdiv (fadd x y) f2) /\ v (fdiv (fadd x y) f2) = (v x + v y) / (1 + 1).
    Proof.
      intros X Y. pose proof (coarse _ _ X) as Xf. pose proof (coarse _ _ Y) as Yf. apply grid_ex in Xf, Yf.
      destruct X as (_ & n & En & Hn), Y as (_ & m & Em & Hm'). set (q := (B / 2 ^ Z.of_nat (S k))%Z) in *.
      assert (P : (0 < 2 ^ Z.of_nat k)%Z) by (apply Z.pow_pos_nonneg; lia).
      assert (QB : (q * (2 * 2 ^ Z.of_nat k) <= B)%Z).
      { pose proof (proj2 (box_bound (S k))) as H. rewrite Nat2Z.inj_succ, Z.pow_succ_r in H by lia. unfold q. rewrite Nat2Z.inj_succ, Z.pow_succ_r by lia. exact H. }
      assert (P2 : (2 * B <= 2 ^ prec)%Z) by (rewrite (two_prec Hp1); assert (0 < 2 ^ (prec - 1))%Z by (apply Z.pow_pos_nonneg; lia); pose proof b0; pose proof b8; nia).
      assert (S0 : ex e (B + B) (fadd x y) (v x + v y)) by (apply ex_plus; [exact Xf|exact Yf|exact elo|exact ehi|lia]).
      assert (S1 : ex (e + 1 + Z.of_nat k) (q + q) (fadd x y) (v x + v y)).
      { destruct S0 as (F & E & _). split; [exact F|]. split; [exact E|]. exists (n + m)%Z. split; [|lia].
        rewrite En, Em, plus_IZR. replace (e + 1 + Z.of_nat k)%Z with (e + Z.of_nat (S k))%Z by lia. ring. }
      pose proof (ex_fine _ _ _ _ _ S1 (Nat2Z.is_nonneg k)) as S2. eapply ex_le with (B := B) in S2; [|lia].
      assert (H : ex e B (fdiv (fadd x y) f2) ((v x + v y) / (1 + 1))).
      { apply (ex_half Hp Hm e B _ _ S2); [exact elo|exact ehi|lia|exact Hp1]. }
      destruct H as (F & E & _). split; [|exact E]. split; [exact F|]. exists (n + m)%Z. split.
      - rewrite E, En, Em, plus_IZR. replace (e + Z.of_nat (S k))%Z with (1 + (e + Z.of_nat k))%Z by lia. rewrite bpow_plus. change (bpow radix2 1) with 2. field.
      - apply Z.le_trans with (q + q)%Z; [lia|]. apply Z.div_le_lower_bound; [exact P|lia].
    Qed.
  End Fits.
End Geo.
