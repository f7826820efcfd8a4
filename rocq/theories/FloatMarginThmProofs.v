(** Rounding errors of the engine: clear crossings are reported. *)
From Coq Require Import ZArith List Bool Lia.
From Flocq Require Import Core IEEE754.BinarySingleNaN.
From Verif Require Import Base BaseProofs Num FloatModel GeoModel HazardModel QTModel TransfModel HpgModel CdeModel CdeSpec HazVecProofs QTProofs QTPathProofs CdeProofs CdeThmProofs Instances.
From Coq Require Import Reals Lra.
From Verif Require Import CdeOpsProofs CdeHistProofs Base Num GeoModel HazardModel QTModel CdeModel CdeSpec GeoSpec SimplSpec FloatSpec FloatMarginSpec ParityProofs FloatArithProofs FloatGeoProofs FloatMarginProofs.
Import ListNotations.

(** *** the engine, for every [Num F] *)
Section Any.
  Context {F : Type} {N : Num F} {D : Type} {ED : EqD D} {BS : BSearch}.
  Hypothesis BSok : bsearch_ok BS.
  Variables (bb : rect F) (st : list (hazard F D)) (lvl n : nat) (ops : list (op F D)) (c : cde F D) (sn : list (snapshot F D)).
  Hypothesis V : valid st ops.
  Hypothesis E : engine bb st lvl n ops = Ok (c, sn).
  Local Notation fs := (facts st ops).

  Lemma fact_wf : forall f, In f fs -> wf_poly (fact_poly f).
  Proof.
    intros f Hf. destruct (engine_inv BSok _ _ _ _ _ _ _ V E) as (I & P & ND).
    eapply Permutation.Permutation_in in Hf; [|apply Permutation.Permutation_sym, P || apply P].
    unfold registered in Hf. apply in_map_iff in Hf as (h & <- & Hh). exact (inv_wf_all _ _ c h I Hh).
  Qed.
  Lemma rel_in' : forall (irr : list (entity D)) (f : CdeSpec.fact F D), ~ In (f_ent f) irr -> rel irr f = true.
  Proof.
    intros irr f H. unfold rel. rewrite negb_true_iff. change (o_ent f) with (f_ent f).
    destruct (memb ent_eqb (f_ent f) irr) eqn:M; [|reflexivity]. apply memb_ent in M. contradiction.
  Qed.
  Lemma chain_ohits : forall f i q, In f fs -> i < n_points (fact_poly f) -> qy_edge q (edge_at (fact_poly f) i) = true ->
    chain lvl bb q (fact_poly f) (edge_at (fact_poly f) i) -> ohits lvl bb q f = true.
  Proof.
    intros f i q Hf Hi Hq C. unfold ohits. eapply (chain_hits lvl bb q (qth_of_obs f)); [|reflexivity| |exact Hq|exact C].
    - split; [reflexivity|]. split; [exact (fact_wf f Hf)|exact Logic.I].
    - unfold idx. cbn [pa_edges pa_shape a_obj]. apply in_seq. change (o_poly f) with (fact_poly f). lia.
  Qed.
  Lemma chain_asked : forall f i q irr, In f fs -> ~ In (f_ent f) irr -> i < n_points (fact_poly f) -> qy_edge q (edge_at (fact_poly f) i) = true ->
    chain lvl bb q (fact_poly f) (edge_at (fact_poly f) i) -> ask c (AskQuery q irr) = Ok TTrue.
  Proof.
    intros f i q irr Hf Ni Hi Hq C. rewrite (ask_facts BSok bb st lvl n ops c sn (AskQuery q irr) V E Logic.I). cbn [answer]. f_equal.
    replace (existsb _ _) with true; [reflexivity|]. symmetry. apply existsb_exists. exists f. split; [exact Hf|].
    apply andb_true_iff. split; [apply rel_in'; exact Ni|]. eapply chain_ohits; eassumption.
  Qed.
  Lemma chain_poly : forall f i s k irr, good_poly s -> In f fs -> ~ In (f_ent f) irr -> i < n_points (fact_poly f) -> k < n_points s ->
    ee_collides (edge_at s k) (edge_at (fact_poly f) i) = true ->
    chain lvl bb (edge_query (edge_at s k)) (fact_poly f) (edge_at (fact_poly f) i) -> ask c (AskPoly s irr) = Ok TTrue.
  Proof.
    intros f i s k irr W Hf Ni Hi Hk Hq C. rewrite (ask_facts BSok bb st lvl n ops c sn (AskPoly s irr) V E W). cbn [answer]. f_equal.
    replace (opoly lvl bb s irr fs) with true; [reflexivity|]. symmetry. unfold opoly.
    destruct (relation_to bb (p_bbox s)); try reflexivity. apply orb_true_iff. left. unfold oedge.
    apply existsb_exists. exists k. split; [apply in_seq; lia|].
    apply existsb_exists. exists f. split; [exact Hf|]. apply andb_true_iff. split; [apply rel_in'; exact Ni|].
    eapply chain_ohits; try eassumption.
  Qed.
  Lemma side_index : forall s g, wf_poly s -> side (p_pts s) g -> exists i, i < n_points s /\ g = edge_at s i.
  Proof.
    intros s g W (i & A & B). exists i. assert (Hi : i < n_points s) by (unfold n_points; apply nth_error_Some; rewrite A; discriminate).
    split; [exact Hi|]. pose proof (get_edge_at s i W Hi) as G. unfold get_edge in G. rewrite A in G. cbn [expect rbind] in G.
    replace (Nat.modulo (i + 1) (n_points s)) with (if Nat.eqb (S i) (length (p_pts s)) then 0 else S i) in G.
    - rewrite B in G. cbn [expect rbind] in G. unfold edge_new in G. destruct (pt_eq (es g) (ee g)); [discriminate|]. injection G as <-. destruct g; reflexivity.
    - unfold n_points in *. destruct (Nat.eqb_spec (S i) (length (p_pts s))) as [Z|Z].
      + rewrite Nat.add_1_r, Z, Nat.mod_same; lia.
      + rewrite Nat.mod_small; lia.
  Qed.
  (** without subdivision, only edges of hazards are reported *)
  Lemma flat_asked : lvl = 0 -> forall q irr, ask c (AskQuery q irr) = Ok TTrue ->
    exists f i, In f fs /\ ~ In (f_ent f) irr /\ i < n_points (fact_poly f) /\ qy_edge q (edge_at (fact_poly f) i) = true /\ qy_rect q bb = true /\ qy_rect q (p_bbox (fact_poly f)) = true.
  Proof.
    intros El q irr H. rewrite (ask_facts BSok bb st lvl n ops c sn (AskQuery q irr) V E Logic.I) in H. cbn [answer] in H. injection H as H.
    destruct (existsb _ _) eqn:X in H; [|discriminate]. apply existsb_exists in X as (f & Hf & X). apply andb_true_iff in X as (R & X).
    rewrite El in X. unfold ohits in X. cbn [hits qth_of_obs q_pres] in X. apply andb_true_iff in X as (X0 & X). unfold pcol in X. cbn [pa_edges pa_shape a_obj] in X.
    apply andb_true_iff in X as (X1 & X). apply existsb_exists in X as (i & Hi & X). apply in_seq in Hi.
    exists f, i. split; [exact Hf|]. split.
    - intros Hin. unfold rel in R. apply negb_true_iff in R. apply memb_ent in Hin. change (o_ent f) with (f_ent f) in R. congruence.
    - change (o_poly f) with (fact_poly f) in *. split; [lia|]. auto.
  Qed.
  Lemma index_side : forall s i, wf_poly s -> i < n_points s -> side (p_pts s) (edge_at s i).
  Proof.
    intros s i W Hi. pose proof (get_edge_at s i W Hi) as G. unfold get_edge in G. exists i.
    replace (Nat.modulo (i + 1) (n_points s)) with (if Nat.eqb (S i) (length (p_pts s)) then 0 else S i) in G.
    - destruct (nth_error (p_pts s) i) as [a|]; [|discriminate]. cbn [expect rbind] in G.
      destruct (nth_error (p_pts s) (if Nat.eqb (S i) (length (p_pts s)) then 0 else S i)) as [b|]; [|discriminate]. cbn [expect rbind] in G.
      unfold edge_new in G. destruct (pt_eq a b); [discriminate|]. injection G as <-. split; reflexivity.
    - unfold n_points in *. destruct (Nat.eqb_spec (S i) (length (p_pts s))) as [Z|Z].
      + rewrite Nat.add_1_r, Z, Nat.mod_same; lia.
      + rewrite Nat.mod_small; lia.
  Qed.
End Any.

Local Open Scope R_scope.
Section Thm.
  Context {prec emax : Z} (Hp : Prec_gt_0 prec) (Hm : Prec_lt_emax prec emax) (umax : nat).
  Local Notation fl := (binary_float prec emax).
  Variable alm : fl -> fl -> bool.
  #[local] Instance NFt : Num fl := FloatNum prec emax Hp Hm umax alm.
  Local Notation v := (@B2R prec emax).
  Local Notation P m := (bpow radix2 m).
  Local Notation emin := (3 - emax - prec)%Z.
  Variable k : Z.
  Hypothesis Hk0 : (0 <= k)%Z.
  Hypothesis Hk : (2 * k + 3 < emax)%Z.
  Local Notation m := (margin prec k).

  Lemma sum_within j (x y : fl) : (0 <= j)%Z -> (j + 1 < emax)%Z -> within j x -> within j y -> within (j + 1) (Bplus mode_NE x y).
  Proof.
    intros Hj0 Hj [Fx Bx] [Fy By].
    assert (B : Rabs (v x + v y) <= P (j + 1)).
    { rewrite bpow_plus. change (P 1) with 2. apply Rle_trans with (1 := Rabs_triang _ _). lra. }
    destruct (rnd_err (emax := emax) Hp (j + 1) _ ltac:(unfold Prec_gt_0, Prec_lt_emax in *; lia) B) as [Hr _].
    pose proof (Bplus_correct prec emax Hp Hm mode_NE x y Fx Fy) as HH. cbn [round_mode] in HH.
    rewrite Rlt_bool_true in HH.
    - destruct HH as (E & F & _). split; [exact F|]. rewrite E. exact Hr.
    - apply Rle_lt_trans with (1 := Hr). apply bpow_lt. exact Hj.
  Qed.
  Lemma two : is_finite (Bplus mode_NE (@Bone prec emax Hp Hm) Bone) = true /\ v (Bplus mode_NE Bone Bone) = 2.
  Proof.
    pose proof (Bplus_correct prec emax Hp Hm mode_NE Bone Bone (is_finite_Bone _ _ Hp Hm) (is_finite_Bone _ _ Hp Hm)) as HH. cbn [round_mode] in HH.
    rewrite Bone_correct in HH. rewrite round_generic in HH; [|typeclasses eauto|].
    - rewrite Rlt_bool_true in HH.
      + destruct HH as (E & F & _). split; [exact F|]. rewrite E. lra.
      + replace (1 + 1) with (P 1) by (cbn; lra). rewrite Rabs_pos_eq by apply bpow_ge_0. apply bpow_lt. unfold Prec_gt_0, Prec_lt_emax in *. lia.
    - replace (1 + 1) with (P 1) by (cbn; lra). change (generic_format radix2 (FLT_exp emin prec) (P 1)).
      apply generic_format_FLT_bpow; [exact Hp|]. unfold Prec_gt_0, Prec_lt_emax in *. lia.
  Qed.
  Lemma half_within (x : fl) : within (k + 1) x -> within k (Bdiv mode_NE x (Bplus mode_NE Bone Bone)).
  Proof.
    intros [Fx Bx]. destruct two as [F2 E2].
    assert (B : Rabs (v x / 2) <= P k).
    { unfold Rdiv. rewrite Rabs_mult, (Rabs_pos_eq (/ 2)) by lra. rewrite bpow_plus in Bx. change (P 1) with 2 in Bx. lra. }
    destruct (rnd_err (emax := emax) Hp k _ ltac:(unfold Prec_gt_0, Prec_lt_emax in *; lia) B) as [Hr _].
    pose proof (Bdiv_correct prec emax Hp Hm mode_NE x (Bplus mode_NE Bone Bone) ltac:(rewrite E2; lra)) as HH. cbn [round_mode] in HH. rewrite E2 in HH.
    rewrite Rlt_bool_true in HH.
    - destruct HH as (E & F & _). split; [rewrite F; exact Fx|]. rewrite E. exact Hr.
    - apply Rle_lt_trans with (1 := Hr). apply bpow_lt. lia.
  Qed.
  Lemma mid_within (x y : fl) : within k x -> within k y -> within k (fdiv (fadd x y) f2).
  Proof. intros A B. apply half_within. apply sum_within; [exact Hk0|lia|exact A|exact B]. Qed.
  Lemma min_within (x y : fl) : within k x -> within k y -> within k (fmin x y).
  Proof.
    intros A B. destruct (fin_min Hp Hm umax alm x y _ _ (wfin k x A) (wfin k y B)) as [F E]. split; [exact F|]. unfold NFt, NFl in *. cbn in E |- *. rewrite E.
    unfold Rmin. destruct (Rle_dec _ _); [apply A|apply B].
  Qed.
  Lemma max_within (x y : fl) : within k x -> within k y -> within k (fmax x y).
  Proof.
    intros A B. destruct (fin_max Hp Hm umax alm x y _ _ (wfin k x A) (wfin k y B)) as [F E]. split; [exact F|]. unfold NFt, NFl in *. cbn in E |- *. rewrite E.
    unfold Rmax. destruct (Rle_dec _ _); [apply B|apply A].
  Qed.
  Lemma quad_within (r : rect fl) j : (j < 4)%nat -> rect_within k r -> rect_within k (q4get (quadrants r) j).
  Proof.
    intros Hj W. pose proof (rect_corner k r) as C. destruct W as (A & B & X & Y).
    assert (W : rect_within k r) by (repeat split; assumption || apply A || apply B || apply X || apply Y).
    assert (M : point_within k (r_centroid r)) by (split; apply mid_within; assumption).
    assert (Q : q4get (quadrants r) j = e_bbox (Ed (q4get (corners r) j) (r_centroid r))) by (destruct j as [|[|[|[|j]]]]; try lia; reflexivity).
    rewrite Q. destruct (C j W) as [CX CY]. destruct M as [MX MY].
    unfold e_bbox, e_xmin, e_ymin, e_xmax, e_ymax. cbn [es ee].
    split; [|split; [|split]]; cbn [x_min y_min x_max y_max]; [apply min_within|apply min_within|apply max_within|apply max_within]; assumption.
  Qed.
  Lemma rel_box (a b : rect fl) : rect_within k a -> rect_within k b -> relation_to a b = Enclosed -> box_in (im_rect v a) (im_rect v b).
  Proof.
    intros A B H. change NFt with (NFl Hp Hm umax alm) in H. rewrite <- (rel_fin Hp Hm umax alm a b (wrfin k a A) (wrfin k b B)) in H. unfold relation_to in H.
    destruct (rr_collides _ _); [|discriminate]. destruct (_ && _) in H; [discriminate|].
    destruct (_ && _) eqn:Q in H; [|discriminate]. rewrite !andb_true_iff in Q. destruct Q as (((Q1 & Q2) & Q3) & Q4).
    apply Rleb_spec in Q1, Q2, Q3, Q4. repeat split; assumption.
  Qed.
  Lemma path_chain (e g : edge fl) (s : poly fl) : edge_within k e -> edge_within k g -> rect_within k (p_bbox s) -> proper (im_rect v (p_bbox s)) ->
    forall lvl bb, rect_within k bb -> clear_path m lvl bb e g (p_bbox s) -> chain lvl bb (edge_query e) s g.
  Proof.
    intros We Wg Ws Ps. induction lvl as [|l IH]; intros bb Wb C; cbn [chain clear_path] in *; destruct C as (Pb & Hb & C).
    - split; [exact (hit_found Hp Hm umax alm k Hk0 Hk bb e Pb Wb We Hb)|exact (hit_found Hp Hm umax alm k Hk0 Hk (p_bbox s) e Ps Ws We C)].
    - split; [exact (hit_found Hp Hm umax alm k Hk0 Hk bb e Pb Wb We Hb)|].
      destruct C as (j & Hj & Hg & Ho & C). exists j. split; [exact Hj|].
      pose proof (quad_within bb j Hj Wb) as Wq.
      assert (Pq : proper (im_rect v (q4get (quadrants bb) j))) by (destruct l; apply C).
      split; [exact (hit_found Hp Hm umax alm k Hk0 Hk _ g Pq Wq Wg Hg)|]. split; [|apply IH; assumption].
      intros x Hx Nx R. apply (Ho x Hx Nx). apply rel_box; [exact Ws|apply quad_within; assumption|exact R].
  Qed.

  Section Engine.
    Context {D : Type} {ED : EqD D} {BS : BSearch}.
    Hypothesis BSok : bsearch_ok BS.
    Variables (bb : rect fl) (st : list (hazard fl D)) (lvl n : nat) (ops : list (op fl D)) (c : cde fl D) (sn : list (snapshot fl D)).
    Hypothesis V : valid st ops.
    Hypothesis E : engine bb st lvl n ops = Ok (c, sn).
    Hypothesis Wb : rect_within k bb.
    Local Notation fs := (facts st ops).

    Lemma clear_reported (f : CdeSpec.fact fl D) (e g : edge fl) irr : In f fs -> ~ In (f_ent f) irr -> side (p_pts (fact_poly f)) g ->
      edge_within k e -> edge_within k g -> rect_within k (p_bbox (fact_poly f)) -> proper (im_rect v (p_bbox (fact_poly f))) ->
      clear_cross m (im_edge v e) (im_edge v g) -> clear_path m lvl bb e g (p_bbox (fact_poly f)) ->
      ask c (AskQuery (edge_query e) irr) = Ok TTrue.
    Proof.
      intros Hf Ni Hg We Wg Ws Ps C Pa. destruct (side_index _ g (fact_wf BSok bb st lvl n ops c sn V E f Hf) Hg) as (i & Hi & ->).
      apply (chain_asked BSok bb st lvl n ops c sn V E f i _ irr Hf Ni Hi).
      - exact (cross_found Hp Hm umax alm k Hk0 Hk e _ We Wg C).
      - apply path_chain; assumption.
    Qed.
    Lemma clear_rejected (f : CdeSpec.fact fl D) (s : poly fl) (e g : edge fl) irr : good_poly s -> side (p_pts s) e ->
      In f fs -> ~ In (f_ent f) irr -> side (p_pts (fact_poly f)) g ->
      edge_within k e -> edge_within k g -> rect_within k (p_bbox (fact_poly f)) -> proper (im_rect v (p_bbox (fact_poly f))) ->
      clear_cross m (im_edge v e) (im_edge v g) -> clear_path m lvl bb e g (p_bbox (fact_poly f)) ->
      ask c (AskPoly s irr) = Ok TTrue.
    Proof.
      intros Gs He Hf Ni Hg We Wg Ws Ps C Pa. destruct (side_index _ g (fact_wf BSok bb st lvl n ops c sn V E f Hf) Hg) as (i & Hi & ->).
      destruct (side_index s e Gs He) as (j & Hj & ->).
      apply (chain_poly BSok bb st lvl n ops c sn V E f i s j irr Gs Hf Ni Hi Hj).
      - exact (cross_found Hp Hm umax alm k Hk0 Hk _ _ We Wg C).
      - apply path_chain; assumption.
    Qed.
    Lemma no_clear_alarm (e : edge fl) irr : lvl = 0%nat -> (1 < prec)%Z -> edge_within k e ->
      (forall f g, In f fs -> side (p_pts (fact_poly f)) g -> edge_within k g) ->
      ask c (AskQuery (edge_query e) irr) = Ok TTrue ->
      exists f g, In f fs /\ ~ In (f_ent f) irr /\ side (p_pts (fact_poly f)) g /\ ~ clear_miss m (im_edge v e) (im_edge v g).
    Proof.
      intros El Hp1 We Wf H. destruct (flat_asked BSok bb st lvl n ops c sn V E El _ irr H) as (f & i & Hf & Ni & Hi & Hq & _).
      pose proof (index_side _ i (fact_wf BSok bb st lvl n ops c sn V E f Hf) Hi) as Hs.
      exists f, (edge_at (fact_poly f) i). split; [exact Hf|]. split; [exact Ni|]. split; [exact Hs|].
      intros M. pose proof (miss_found Hp Hm umax alm k Hk0 Hk e _ Hp1 We (Wf f _ Hf Hs) M) as X.
      change (ee_collides e (edge_at (fact_poly f) i) = true) in Hq. unfold NFt, NFm in *. congruence.
    Qed.
  End Engine.
End Thm.
