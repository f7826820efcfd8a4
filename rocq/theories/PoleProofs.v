(** The search for poles of inaccessibility (fail_fast/poi.rs). *)
From Coq Require Import Reals List Bool Arith Lra Lia Psatz Permutation.
From Verif Require Import Base Num GeoModel HazardModel QTModel TransfModel PolyModel GeoSpec ShapeSpec
  BaseProofs QTProofs ParityProofs GeoPrimProofs GeoRectProofs PipProofs RegionProofs BoundProofs.
Import ListNotations.
Local Open Scope R_scope.
#[local] Existing Instance RNum.

(** *** distances along a segment *)
Lemma seg_dist : forall p q x, on_seg (Ed p q) x -> edist p x + edist x q = edist p q.
Proof.
  intros p q x (t & Ht & ->). pose proof (edist_nonneg p q) as N.
  assert (S : edist p q * edist p q = (px q - px p) ^ 2 + (py q - py p) ^ 2) by (rewrite edist_sq; ring).
  assert (A : edist p (at_t (Ed p q) t) = t * edist p q).
  { apply (edist_scaled _ _ (px q - px p) (py q - py p)); try lra; try exact S; unfold at_t; cbn; ring. }
  assert (B : edist (at_t (Ed p q) t) q = (1 - t) * edist p q).
  { apply (edist_scaled _ _ (px q - px p) (py q - py p)); try lra; try exact S; unfold at_t; cbn; ring. }
  lra.
Qed.
Lemma on_seg_end : forall p q, on_seg (Ed p q) q.
Proof. intros p [a b]. exists 1. split; [lra|]. unfold at_t; cbn. f_equal; ring. Qed.

Lemma zero_eq : forall p q, edist p q = 0 -> p = q.
Proof.
  intros [p1 p2] [q1 q2] Z. pose proof (edist_sq (Pt p1 p2) (Pt q1 q2)) as S. rewrite Z in S. cbn [px py] in S.
  pose proof (pow2_ge_0 (p1 - q1)). pose proof (pow2_ge_0 (p2 - q2)). f_equal; apply Rminus_diag_uniq; apply Rsqr_eq_0; unfold Rsqr; nra.
Qed.

Lemma clear_good : forall l disks c, 0 < crad c -> clear_of l disks (ccen c) (crad c) -> good_pole l disks c.
Proof.
  intros l disks c P (E & B & K). split.
  - exact P.
  - split; [|exact E]. intros O. specialize (B _ O). rewrite edist_refl in B. lra.
  - intros p D. unfold in_disk in D. rewrite edist_sym in D. destruct (Rlt_dec (edist (ccen c) p) (crad c)) as [L|L].
    + right. rewrite <- (even_odd_path l (ccen c) p); [exact E|].
      intros x X O. specialize (B _ O). pose proof (seg_dist _ _ _ X). pose proof (edist_nonneg x p). lra.
    + destruct (even_odd l p) eqn:Q; [right; exact Q|]. left.
      (* on the rim: either on the border or a path inside *)
      assert (Eq : edist (ccen c) p = crad c) by lra. clear D L.
      destruct (on_border_dec l p) as [O|O]; [exact O|]. exfalso.
      rewrite <- (even_odd_path l (ccen c) p) in Q; [congruence|].
      intros x X Ob. specialize (B _ Ob). pose proof (seg_dist _ _ _ X) as S. pose proof (edist_nonneg x p).
      assert (Z : edist x p = 0) by lra. apply O. replace p with x; [exact Ob|].
      apply zero_eq, Z.
  - intros k p I L. specialize (K _ I). pose proof (edist_tri (ccen c) p (ccen k)). rewrite (edist_sym (ccen c) p) in H. lra.
Qed.

(** *** one node *)
Lemma rmapM_inv : forall {A B} (f : A -> res B) (P : A -> B -> Prop) l, (forall x, In x l -> exists y, f x = Ok y /\ P x y) ->
  exists l', rmapM f l = Ok l' /\ Forall2 P l l'.
Proof.
  intros A B f P l. induction l as [|x l IH]; intros H; cbn [rmapM]; [exists []; auto|].
  destruct (H x (or_introl eq_refl)) as (y & E & Py). rewrite E. cbn [rbind].
  destruct IH as (l' & E' & F'); [intros z Hz; apply H; right; exact Hz|]. rewrite E'. cbn [rbind]. eauto.
Qed.
Lemma fmin_fold : forall l a, In (fold_left Rmin l a) (a :: l) /\ forall x, In x (a :: l) -> fold_left Rmin l a <= x.
Proof.
  induction l as [|y l IH]; intros a; cbn [fold_left].
  - split; [left; reflexivity|]. intros x [<-|[]]. lra.
  - destruct (IH (Rmin a y)) as [I L]. split.
    + destruct I as [I|I]; [|right; right; exact I]. rewrite <- I. unfold Rmin. destruct (Rle_dec a y); [left|right; left]; reflexivity.
    + pose proof (L _ (or_introl eq_refl)) as L0. intros x [<-|[<-|Hx]].
      * eapply Rle_trans; [exact L0|apply Rmin_l].
      * eapply Rle_trans; [exact L0|apply Rmin_r].
      * apply L. right. exact Hx.
Qed.
Lemma cp_border_val : forall k p, snd (cp_dist_border k p) = Rabs (edist p (ccen k) - crad k).
Proof.
  intros k p. unfold cp_dist_border. unr.
  replace ((px p - px (ccen k)) * (px p - px (ccen k)) + (py p - py (ccen k)) * (py p - py (ccen k)))
    with (edist p (ccen k) * edist p (ccen k)) by (rewrite edist_sq; ring).
  rewrite sqrt_square by apply edist_nonneg.
  destruct (Rleb (edist p (ccen k)) (crad k)) eqn:E; [apply Rleb_spec in E|apply Rleb_nspec in E]; cbn [snd].
  - rewrite Rabs_left1; lra.
  - rewrite Rabs_pos_eq; lra.
Qed.
Section Search.
  Variable s : poly R.
  Variable poles : list rcircle.
  Hypothesis So : sound_poly s.
  Hypothesis Ne : p_pts s <> [].
  Hypothesis Pn : forall k, In k poles -> 0 <= crad k.
  Let l := p_pts s.

  Definition node_spec (bb : rrect) (d : R) : Prop :=
    (0 < d -> clear_of l poles (r_centroid bb) d) /\
    forall p r, clear_of l poles p r -> r - edist p (r_centroid bb) <= d.
  Lemma node_ok : forall bb, exists d, pnode_new s poles bb = Ok (PN bb (r_diameter bb / 2) d) /\ node_spec bb d.
  Proof.
    intros bb. destruct So as (Nd & Bx). assert (W : wf_poly s) by (apply wf_ring; exact Nd).
    unfold pnode_new. set (c := r_centroid bb).
    rewrite (pp_collides_ok s c W). cbn [rbind].
    rewrite (rmapM_ok _ (fun i => e_dist (edge_at s i) c)).
    2: { intros i Hi. unfold edge_indices in Hi. apply in_seq in Hi. rewrite (get_edge_at s i W) by lia. reflexivity. }
    cbn [rbind]. rewrite <- (map_map (edge_at s) (fun e => e_dist e c)), (map_edge_at s W).
    set (ds := map (fun e => e_dist e c) (ring (p_pts s)) ++ map (fun k => snd (cp_dist_border k c)) poles).
    assert (exists x r, ds = x :: r) as (x & r & Eds).
    { unfold ds. destruct (p_pts s) as [|a [|b r]]; [congruence|cbn; eauto|cbn; eauto]. }
    change (map (fun e => e_dist e c) (ring (p_pts s)) ++ map (fun k => snd (cp_dist_border k c)) poles) with ds. rewrite Eds.
    cbn [rbind]. destruct (fmin_fold r x) as (I & M). rewrite <- Eds in I, M.
    change (fold_left fmin r x) with (fold_left Rmin r x). set (D := fold_left Rmin r x) in *. clearbody D. clear Eds.
    assert (Me : forall q, on_border l q -> D <= edist c q).
    { intros q (e & He & Hq). eapply Rle_trans; [apply (M (e_dist e c)); unfold ds; apply in_app_iff; left; apply (in_map (fun e => e_dist e c)), He|].
      destruct (e_dist_ok e c) as (_ & L). apply L, Hq. }
    assert (Mk : forall k, In k poles -> D <= Rabs (edist c (ccen k) - crad k)).
    { intros k Hk. rewrite <- cp_border_val. apply M. unfold ds. apply in_app_iff. right.
      apply (in_map (fun k => snd (cp_dist_border k c))), Hk. }
    assert (At : (exists q, on_border l q /\ D = edist c q) \/ exists k, In k poles /\ D = Rabs (edist c (ccen k) - crad k)).
    { unfold ds in I. apply in_app_iff in I. destruct I as [I|I]; apply in_map_iff in I.
      - destruct I as (e & E & He). destruct (e_dist_ok e c) as ((q & Hq & E') & _). left. exists q. split; [exists e; auto|congruence].
      - destruct I as (k & E & Hk). right. exists k. rewrite <- cp_border_val. auto. }
    assert (D0 : 0 <= D) by (destruct At as [(q & _ & ->)|(k & _ & ->)]; [apply edist_nonneg|apply Rabs_pos]).
    clear M I ds x r.
    eexists. split; [reflexivity|]. cbn [fneg RNum RNumT]. unfold node_spec. fold c.
    destruct (forallb (fun k => negb (cp_collides k c)) poles) eqn:Fp.
    - assert (Out : forall k, In k poles -> crad k < edist c (ccen k)).
      { intros k Hk. rewrite forallb_forall in Fp. specialize (Fp k Hk). destruct (cp_collides k c) eqn:Q; [discriminate|].
        apply Rnot_le_lt. intros H. assert (cp_collides k c = true) by (apply cp_collides_iff; [apply Pn, Hk|exact H]). congruence. }
      assert (Mk' : forall k, In k poles -> crad k + D <= edist c (ccen k)).
      { intros k Hk. specialize (Mk k Hk). specialize (Out k Hk). rewrite Rabs_pos_eq in Mk; lra. }
      rewrite andb_true_r. destruct (pp_pure s c) eqn:In1.
      + split.
        * intros P. split; [|split; [exact Me|exact Mk']].
          change (even_odd (p_pts s) c = true). rewrite <- (pip_pure s c W Bx); [exact In1|]. intros O. specialize (Me _ O). rewrite edist_refl in Me. lra.
        * intros p r (E & B & K). destruct At as [(q & O & ->)|(k & Hk & ->)].
          -- specialize (B _ O). pose proof (edist_tri p c q). lra.
          -- specialize (K _ Hk). specialize (Out _ Hk). rewrite Rabs_pos_eq by lra. pose proof (edist_tri p c (ccen k)). lra.
      + split; [lra|]. intros p r (E & B & K). apply Rnot_lt_le. intros L.
        assert (P : forall x, on_seg (Ed p c) x -> ~ on_border l x).
        { intros x X O. pose proof (seg_dist _ _ _ X) as S. pose proof (B _ O). pose proof (Me _ O) as H1. rewrite edist_sym in H1. lra. }
        pose proof (even_odd_path l p c P) as Q.
        rewrite (pip_pure s c W Bx) in In1; [fold l in In1; congruence|]. apply P, on_seg_end.
    - rewrite andb_false_r. split; [lra|]. intros p r (E & B & K).
      assert (exists k, In k poles /\ cp_collides k c = true) as (k & Hk & Hc).
      { apply Bool.not_true_iff_false in Fp. clear -Fp. induction poles as [|k ks IH]; [exfalso; apply Fp; reflexivity|].
        cbn [forallb] in Fp. destruct (cp_collides k c) eqn:Q; [exists k; cbn; auto|].
        destruct IH as (k' & H & H'); [exact Fp|]. exists k'. cbn; auto. }
      apply cp_collides_iff in Hc; [|apply Pn, Hk]. unfold in_disk in Hc. specialize (Mk k Hk). specialize (K k Hk).
      rewrite Rabs_left1 in Mk by lra. pose proof (edist_tri p c (ccen k)). lra.
  Qed.

  (** *** the search *)
  Definition node_good (rad : R) (n : pnode R) : Prop :=
    proper (pn_bbox n) /\ pn_radius n = rad /\ r_diameter (pn_bbox n) / 2 = rad /\ node_spec (pn_bbox n) (pn_dist n).
  Definition best_ok (b : option rcircle) : Prop :=
    match b with None => True | Some c => 0 < crad c /\ clear_of l poles (ccen c) (crad c) end.
  Lemma best_nonneg : forall b, best_ok b -> 0 <= best_dist b.
  Proof. intros [c|] H; cbn in *; [destruct H; lra|lra]. Qed.
  Lemma new_good : forall bb, proper bb -> exists n, pnode_new s poles bb = Ok n /\ pn_bbox n = bb /\ node_good (r_diameter bb / 2) n.
  Proof.
    intros bb Pr. destruct (node_ok bb) as (d & E & S). eexists. split; [exact E|]. split; [reflexivity|].
    split; [exact Pr|]. split; [reflexivity|]. split; [reflexivity|exact S].
  Qed.
  Lemma half_diag : forall bb p, in_rect bb p -> edist p (r_centroid bb) <= r_diameter bb / 2.
  Proof.
    intros [a b c d] p (X & Y). cbn [x_min x_max y_min y_max] in X, Y. unfold r_diameter, r_centroid. unr. cbn [x_min x_max y_min y_max].
    apply Rsqr_incr_0_var.
    - unfold Rsqr. rewrite edist_sq. cbn [px py].
      set (q := sqrt _). assert (Q : q * q = (c - a) * (c - a) + (d - b) * (d - b)) by (apply sqrt_sqrt; nra).
      replace (q / 2 * (q / 2)) with (q * q / 4) by field. rewrite Q.
      replace (1 + 1) with 2 by lra. set (u := (a + c) / 2). set (v := (b + d) / 2).
      assert (2 * u = a + c) by (unfold u; field). assert (2 * v = b + d) by (unfold v; field).
      assert ((px p - a) * (c - px p) >= 0) by nra. assert ((py p - b) * (d - py p) >= 0) by nra. nra.
    - assert (0 <= sqrt ((c - a) * (c - a) + (d - b) * (d - b))) by apply sqrt_pos. lra.
  Qed.
  Lemma quad_diag : forall bb i, proper bb -> (i < 4)%nat -> r_diameter (q4get (quadrants bb) i) = r_diameter bb / 2.
  Proof.
    intros bb i Pr Hi. destruct (quad_i bb i Pr Hi) as (_ & X & Y). set (q := q4get (quadrants bb) i) in *. clearbody q.
    unfold r_diameter. unr. unfold mid_x in X. unfold mid_y in Y.
    assert (DX : x_max q - x_min q = (x_max bb - x_min bb) / 2) by lra.
    assert (DY : y_max q - y_min q = (y_max bb - y_min bb) / 2) by lra. rewrite DX, DY.
    set (w := x_max bb - x_min bb). set (h := y_max bb - y_min bb).
    replace (w / 2 * (w / 2) + h / 2 * (h / 2)) with ((w * w + h * h) * ((/ 2) * (/ 2))) by field.
    rewrite sqrt_mult by nra. rewrite sqrt_square by lra. lra.
  Qed.
  Lemma q4_in : forall {A} (q : q4 A) x, In x (q4list q) <-> exists i, (i < 4)%nat /\ q4get q i = x.
  Proof.
    intros A [a b c d] x. cbn. split.
    - intros [<-|[<-|[<-|[<-|[]]]]]; [exists 0%nat|exists 1%nat|exists 2%nat|exists 3%nat]; split; auto; lia.
    - intros (i & Hi & <-). destruct i as [|[|[|[|i]]]]; cbn; auto; lia.
  Qed.
  Definition slack (lvl : nat) (rad : R) : R := match lvl with 0%nat => rad | _ => 0 end.
  Lemma visit_ok : forall lvl rad best q n, node_good rad n -> best_ok best -> Forall (node_good (rad / 2)) q ->
    exists best' q', poi_visit s poles lvl (best, q) n = Ok (best', q') /\ best_ok best' /\ Forall (node_good (rad / 2)) q' /\
      best_dist best <= best_dist best' /\ incl q q' /\
      forall p r, clear_of l poles p r -> in_rect (pn_bbox n) p ->
        r <= best_dist best' + slack lvl rad \/ lvl <> 0%nat /\ exists n', In n' q' /\ in_rect (pn_bbox n') p.
  Proof.
    intros lvl rad best q n (Pr & R1 & R2 & (S1 & S2)) B Q. unfold poi_visit.
    set (best' := if flt (best_dist best) (pn_dist n) then Some (Ci (r_centroid (pn_bbox n)) (pn_dist n)) else best).
    assert (BB : best_ok best' /\ best_dist best <= best_dist best' /\ pn_dist n <= best_dist best').
    { unfold best'. cbn [flt RNum RNumT]. pose proof (best_nonneg best B) as B0. rdestr (best_dist best) (pn_dist n).
      - cbn [best_ok best_dist ccen crad]. split; [split; [lra|apply S1; lra]|lra].
      - split; [exact B|lra]. }
    clearbody best'. destruct BB as (B1 & B2 & B3). pose proof (best_nonneg best' B1) as B0.
    assert (Near : forall p r, clear_of l poles p r -> in_rect (pn_bbox n) p -> r <= pn_dist n + rad).
    { intros p r C I. specialize (S2 p r C). pose proof (half_diag (pn_bbox n) p I) as H. rewrite R2 in H. lra. }
    assert (E : flt (best_dist best') (pn_upper n) = Rltb (best_dist best') (rad + pn_dist n)) by (unfold pn_upper; rewrite R1; reflexivity).
    rewrite E. clear E. rdestr (best_dist best') (rad + pn_dist n).
    - destruct lvl as [|lv].
      + exists best', q. split; [reflexivity|]. split; [exact B1|]. split; [exact Q|]. split; [exact B2|]. split; [apply incl_refl|].
        intros p r C I. left. cbn [slack]. specialize (Near p r C I). lra.
      + destruct (rmapM_inv (pnode_new s poles) (fun bb n' => pn_bbox n' = bb /\ node_good (rad / 2) n') (q4list (quadrants (pn_bbox n)))) as (ch & Ec & F2).
        { intros bb Hb. apply q4_in in Hb. destruct Hb as (i & Hi & <-). destruct (quad_i _ i Pr Hi) as (Pq & _).
          destruct (new_good _ Pq) as (n' & E & Eb & G). exists n'. split; [exact E|]. split; [exact Eb|].
          rewrite (quad_diag _ i Pr Hi) in G. rewrite R2 in G. exact G. }
        rewrite Ec. cbn [rbind]. exists best', (q ++ ch). split; [reflexivity|]. split; [exact B1|]. split.
        { apply Forall_app. split; [exact Q|]. clear -F2. induction F2 as [|? ? ? ? (_ & H)]; constructor; auto. }
        split; [exact B2|]. split; [intros x Hx; apply in_app_iff; auto|].
        intros p r C I. right. split; [discriminate|]. destruct (quad_cover _ p Pr I) as (i & Hi & Ip).
        assert (Hq : In (q4get (quadrants (pn_bbox n)) i) (q4list (quadrants (pn_bbox n)))) by (apply q4_in; eauto).
        clear -F2 Hq Ip. remember (q4list (quadrants (pn_bbox n))) as qs eqn:Eq. clear Eq.
        set (bb := q4get (quadrants (pn_bbox n)) i) in *. clearbody bb.
        induction F2 as [|x y xs ys (E & G) F2 IH]; [destruct Hq|]. destruct Hq as [->|Hq].
        * exists y. split; [apply in_app_iff; right; left; reflexivity|]. rewrite E. exact Ip.
        * destruct (IH Hq) as (n' & A & B'). exists n'. split; [|exact B'].
          apply in_app_iff in A. apply in_app_iff. cbn. tauto.
    - exists best', q. split; [destruct lvl; reflexivity|]. split; [exact B1|]. split; [exact Q|]. split; [exact B2|]. split; [apply incl_refl|].
      intros p r C I. left. specialize (Near p r C I).
      assert (0 <= slack lvl rad); [|lra]. destruct lvl; cbn [slack]; [|lra].
      rewrite <- R2. pose proof (edist_nonneg p (r_centroid (pn_bbox n))). pose proof (half_diag _ _ I). lra.
  Qed.
  Lemma fold_ok : forall lvl rad queue best, Forall (node_good rad) queue -> best_ok best ->
    exists best' q', rfold (poi_visit s poles lvl) queue (best, []) = Ok (best', q') /\ best_ok best' /\ Forall (node_good (rad / 2)) q' /\
      best_dist best <= best_dist best' /\
      forall n p r, In n queue -> clear_of l poles p r -> in_rect (pn_bbox n) p ->
        r <= best_dist best' + slack lvl rad \/ lvl <> 0%nat /\ exists n', In n' q' /\ in_rect (pn_bbox n') p.
  Proof.
    intros lvl rad queue best Q B.
    destruct (rfold_inv (poi_visit s poles lvl) (fun done a => best_ok (fst a) /\ Forall (node_good (rad / 2)) (snd a) /\
      best_dist best <= best_dist (fst a) /\
      forall n p r, In n done -> clear_of l poles p r -> in_rect (pn_bbox n) p ->
        r <= best_dist (fst a) + slack lvl rad \/ lvl <> 0%nat /\ exists n', In n' (snd a) /\ in_rect (pn_bbox n') p) queue (best, [])) as ((b' & q') & E & H).
    - cbn [fst snd]. split; [exact B|]. split; [constructor|]. split; [lra|]. intros n p r [].
    - intros done n (b & q) (H1 & H2 & H3 & H4) Hn. cbn [fst snd] in *. rewrite Forall_forall in Q.
      destruct (visit_ok lvl rad b q n (Q n Hn) H1 H2) as (b' & q' & E & K1 & K2 & K3 & K4 & K5).
      exists (b', q'). split; [exact E|]. cbn [fst snd]. split; [exact K1|]. split; [exact K2|]. split; [lra|].
      intros m p r Hm C I. apply in_app_iff in Hm. destruct Hm as [Hm|[<-|[]]].
      + destruct (H4 m p r Hm C I) as [L|(Z & n' & A1 & A2)]; [left; lra|right; split; [exact Z|]; exists n'; auto].
      + apply K5; assumption.
    - exists b', q'. split; [exact E|]. cbn [fst snd] in H. tauto.
  Qed.
  Lemma levels_ok : forall lvl rad best queue, Forall (node_good rad) queue -> best_ok best ->
    exists b, poi_levels s poles lvl best queue = Ok b /\ best_ok b /\ best_dist best <= best_dist b /\
      forall n p r, In n queue -> clear_of l poles p r -> in_rect (pn_bbox n) p -> r <= best_dist b + rad / 2 ^ lvl.
  Proof.
    induction lvl as [|lv IH]; intros rad best queue Q B; cbn [poi_levels];
      [destruct (fold_ok 0 rad queue best Q B) as (b & q & E & H1 & H2 & H3 & H4)
      |destruct (fold_ok (S lv) rad queue best Q B) as (b & q & E & H1 & H2 & H3 & H4)]; rewrite E; cbn [rbind].
    - exists b. split; [reflexivity|]. split; [exact H1|]. split; [exact H3|]. intros n p r Hn C I.
      destruct (H4 n p r Hn C I) as [L|(Z & _)]; [|congruence]. cbn [slack] in L. cbn [pow]. lra.
    - destruct (IH (rad / 2) b q H2 H1) as (b' & E' & K1 & K2 & K3). exists b'. split; [exact E'|]. split; [exact K1|]. split; [lra|].
      intros n p r Hn C I. assert (P : 0 < 2 ^ lv) by (apply pow_lt; lra).
      replace (rad / 2 ^ S lv) with (rad / 2 / 2 ^ lv) by (cbn [pow]; field; lra).
      destruct (H4 n p r Hn C I) as [L|(_ & n' & A1 & A2)].
      + cbn [slack] in L. rewrite Forall_forall in Q. destruct (Q n Hn) as (_ & _ & <- & _).
        pose proof (half_diag _ _ I). pose proof (edist_nonneg p (r_centroid (pn_bbox n))).
        assert (0 <= r_diameter (pn_bbox n) / 2 / 2 / 2 ^ lv); [|lra]. apply Rmult_le_pos; [lra|]. left. apply Rinv_0_lt_compat, P.
      + apply (K3 n' p r A1 C A2).
  Qed.
  Lemma root_diag : r_diameter (inflate_to_square (p_bbox s)) / 2 = resolution (p_bbox s) 0.
  Proof.
    destruct So as (_ & (Pr & _)). destruct Pr as (Px & Py). unfold resolution. cbn [pow]. unfold Rdiv. rewrite Rinv_1, Rmult_1_r. f_equal.
    destruct (p_bbox s) as [a b c d]. cbn [x_min x_max y_min y_max] in *.
    unfold r_diameter, inflate_to_square. cbn [x_min x_max y_min y_max]. unr.
    assert (G : forall w, 0 <= w -> sqrt (w * w + w * w) = sqrt 2 * w).
    { intros w Hw. replace (w * w + w * w) with (2 * (w * w)) by ring. rewrite sqrt_mult by nra. rewrite sqrt_square by exact Hw. reflexivity. }
    rdestr (d - b) (c - a); [|rdestr (c - a) (d - b)]; cbn [x_min x_max y_min y_max].
    - rewrite Rmax_left by lra. rewrite <- G by lra. f_equal. f_equal; f_equal; lra.
    - rewrite Rmax_right by lra. rewrite <- G by lra. f_equal. f_equal; f_equal; lra.
    - rewrite Rmax_right by lra. rewrite <- G by lra. f_equal. f_equal; f_equal; lra.
  Qed.
  Theorem next_pole_ok : forall depth,
    (forall c, next_pole depth s poles = Ok c -> 0 < crad c /\ clear_of l poles (ccen c) (crad c)) /\
    (forall c p r, next_pole depth s poles = Ok c -> clear_of l poles p r -> r <= crad c + resolution (p_bbox s) depth) /\
    (forall p r, clear_of l poles p r -> resolution (p_bbox s) depth < r -> exists c, next_pole depth s poles = Ok c).
  Proof.
    intros depth. pose proof So as (_ & (Pr & Bx)). unfold next_pole.
    destruct (new_good _ (inflate_proper _ Pr)) as (root & E & Eb & G). rewrite E. cbn [rbind]. rewrite root_diag in G.
    destruct (levels_ok depth _ None [root] (Forall_cons _ G (Forall_nil _)) I) as (b & E' & K1 & K2 & K3). rewrite E'. cbn [rbind].
    assert (R0 : 0 <= resolution (p_bbox s) depth).
    { unfold resolution, Rdiv. apply Rmult_le_pos; [|left; apply Rinv_0_lt_compat, pow_lt; lra].
      destruct Pr. pose proof (sqrt_pos 2). pose proof (Rmax_l (x_max (p_bbox s) - x_min (p_bbox s)) (y_max (p_bbox s) - y_min (p_bbox s))). nra. }
    assert (KEY : forall p r, 0 < r -> clear_of l poles p r -> r <= best_dist b + resolution (p_bbox s) depth).
    { intros p r Hr C. replace (resolution (p_bbox s) depth) with (resolution (p_bbox s) 0 / 2 ^ depth).
      - apply (K3 root p r); [left; reflexivity|exact C|]. rewrite Eb. destruct C as (Ev & Bd & _).
        apply inflate_sub; [|destruct Pr; split; lra].
        assert (O : in_open_rect (p_bbox s) p).
        { apply (even_odd_box _ l); [exact Bx| |exact Ev]. intros O. specialize (Bd _ O). rewrite edist_refl in Bd. lra. }
        destruct O; split; lra.
      - unfold resolution. cbn [pow]. unfold Rdiv. rewrite Rinv_1, Rmult_1_r. reflexivity. }
    split; [|split].
    - intros c H. apply expect_ok in H. subst b. exact K1.
    - intros c p r H C. apply expect_ok in H. subst b. destruct (Rlt_dec 0 r) as [L|L]; [apply (KEY p r L C)|].
      cbn [best_ok] in K1. lra.
    - intros p r C L. destruct b as [c|]; [exists c; reflexivity|]. specialize (KEY p r ltac:(lra) C). cbn [best_dist f0 RNum RNumT] in KEY. lra.
  Qed.
End Search.

(** *** several poles *)
Definition pair_apart (a b : rcircle) : Prop := crad a + crad b <= edist (ccen a) (ccen b).
Lemma pair_apart_sym : forall a b, pair_apart a b -> pair_apart b a.
Proof. intros a b H. unfold pair_apart in *. rewrite edist_sym. lra. Qed.
Fixpoint pairwise (l : list rcircle) : Prop :=
  match l with [] => True | c :: r => (forall k, In k r -> pair_apart c k) /\ pairwise r end.
Lemma pairwise_apart : forall l, pairwise l -> disks_apart l.
Proof.
  induction l as [|c r IH]; cbn; [tauto|]. intros (H & K). split; [|apply IH, K].
  intros k p I L. specialize (H k I). unfold pair_apart in H. pose proof (edist_tri (ccen c) p (ccen k)) as T.
  rewrite (edist_sym (ccen c) p) in T. lra.
Qed.
Lemma pairwise_perm : forall l l', Permutation l l' -> pairwise l -> pairwise l'.
Proof.
  intros l l' P. induction P as [|x l l' P IH|x y l|l l' l'' P1 IH1 P2 IH2]; cbn [pairwise]; auto.
  - intros (A & B). split; [|apply IH, B]. intros k K. apply A. apply Permutation_sym in P. eapply Permutation_in; eauto.
  - intros (A & B & C). split; [|split; [|exact C]].
    + intros k [<-|K]; [apply pair_apart_sym, A; left; reflexivity|apply B, K].
    + intros k K. apply A. right. exact K.
Qed.
Lemma pairwise_snoc : forall l c, pairwise l -> (forall k, In k l -> pair_apart k c) -> pairwise (l ++ [c]).
Proof.
  induction l as [|x l IH]; cbn [pairwise app]; intros c P H.
  - split; [intros k []|exact I].
  - destruct P as (P1 & P2). split.
    + intros k K. apply in_app_iff in K. destruct K as [K|[<-|[]]]; [apply P1, K|apply H; left; reflexivity].
    + apply IH; [exact P2|]. intros k K. apply H. right. exact K.
Qed.
Lemma more_ok : forall s pi goal, sound_poly s -> p_pts s <> [] -> forall n poles total all,
  poles <> [] -> (forall k, In k poles -> 0 < crad k /\ clear_of (p_pts s) [] (ccen k) (crad k)) -> pairwise poles ->
  more_poles n pi goal s poles total = Ok all ->
  exists add, all = poles ++ add /\ (length add <= n)%nat /\
    (forall k, In k all -> 0 < crad k /\ clear_of (p_pts s) [] (ccen k) (crad k)) /\ pairwise all.
Proof.
  intros s pi goal So Ne. induction n as [|n IH]; intros poles total all Pe Pg Pw E; cbn [more_poles] in E.
  - injection E as <-. exists []. rewrite app_nil_r. auto.
  - destruct (generate_next_pole s poles) as [c|] eqn:Ec; [|discriminate]. cbn [rbind] in E.
    assert (Pn : forall k, In k poles -> 0 <= crad k) by (intros k K; destruct (Pg k K); lra).
    destruct (next_pole_ok s poles So Ne Pn MAX_POI_TREE_DEPTH) as (N1 & _ & _). specialize (N1 c Ec). destruct N1 as (C0 & Cc).
    assert (Cc' : clear_of (p_pts s) [] (ccen c) (crad c)) by (destruct Cc as (A & B & _); split; [exact A|split; [exact B|intros k []]]).
    assert (Pg' : forall k, In k (poles ++ [c]) -> 0 < crad k /\ clear_of (p_pts s) [] (ccen k) (crad k)).
    { intros k K. apply in_app_iff in K. destruct K as [K|[<-|[]]]; auto. }
    assert (Pw' : pairwise (poles ++ [c])).
    { apply pairwise_snoc; [exact Pw|]. intros k K. destruct Cc as (_ & _ & A). specialize (A k K). unfold pair_apart. rewrite edist_sym. lra. }
    match type of E with context [if ?b then _ else _] => destruct b end.
    + injection E as <-. exists [c]. cbn [length]. split; [reflexivity|]. split; [lia|auto].
    + eapply IH in E; auto; [|intros H; destruct poles; discriminate]. destruct E as (add & -> & L & G & P).
      exists (c :: add). rewrite <- app_assoc in *. cbn [app length] in *. split; [reflexivity|]. split; [lia|auto].
Qed.
Lemma max_index_lt : forall (l : list R) i, max_index l = Some i -> (i < length l)%nat.
Proof.
  intros [|x l] i E; [discriminate|]. cbn [max_index] in E. injection E as <-. cbn [length].
  assert (G : forall l j b, (fst b < j)%nat -> (fst (max_index_from j b l) < j + length l)%nat).
  { clear. induction l as [|y l IH]; intros j b Hb; cbn [max_index_from length]; [lia|].
    eapply Nat.lt_le_trans; [apply IH|lia]. destruct (fle (snd b) y); cbn [fst]; lia. }
  apply (G l 1%nat (0%nat, x)). cbn. lia.
Qed.
Lemma vremove_some : forall {A} i (l : list A), (i < length l)%nat -> exists x r, vremove i l = Some (x, r) /\ Permutation (x :: r) l.
Proof.
  intros A i l H. destruct (nth_error l i) as [x|] eqn:E; [|apply nth_error_None in E; lia].
  apply nth_error_split in E. destruct E as (l1 & l2 & -> & <-). exists x, (l1 ++ l2). split; [apply vremove_app|apply Permutation_middle].
Qed.
Lemma sort_poles_ok : forall fuel (poi : rcircle) sorted unsorted, (length unsorted <= fuel)%nat ->
  exists r, sort_poles fuel poi sorted unsorted = Ok r /\ Permutation r (sorted ++ unsorted).
Proof.
  induction fuel as [|f IH]; intros poi sorted [|u us] L; cbn [length] in L; try lia;
    try (exists sorted; cbn [sort_poles]; rewrite app_nil_r; split; reflexivity).
  cbn [sort_poles]. set (un := u :: us) in *. assert (Lu : length un = S (length us)) by reflexivity.
  set (score := fun p : rcircle => _).
  assert (Sc : exists g, forall p, score p = Ok (g p)).
  { unfold score. destruct (sorted ++ [poi]) as [|a b] eqn:Q; [destruct sorted; discriminate|].
    cbn [map fmin_list expect rbind]. eexists. intros p. reflexivity. }
  destruct Sc as (g & Sc). rewrite (rmapM_ok score g) by (intros; apply Sc). cbn [rbind].
  destruct (max_index (map g un)) as [i|] eqn:Mi; [|discriminate]. cbn [expect rbind].
  apply max_index_lt in Mi. rewrite map_length in Mi. destruct (vremove_some i un Mi) as (p & r & E & P). rewrite E. cbn [expect rbind].
  assert (Lr : (length r <= f)%nat) by (apply Permutation_length in P; cbn [length] in P; lia).
  destruct (IH poi (sorted ++ [p]) r Lr) as (res & E' & P'). exists res. split; [exact E'|].
  rewrite P', <- app_assoc. cbn [app]. apply Permutation_app_head, P.
Qed.
Theorem additional_ok : forall s pi n goal add, sound_poly s -> p_pts s <> [] ->
  0 < crad (p_poi s) -> clear_of (p_pts s) [] (ccen (p_poi s)) (crad (p_poi s)) ->
  additional_poles pi s n goal = Ok add ->
  (length add <= n)%nat /\ (forall k, In k (p_poi s :: add) -> 0 < crad k /\ clear_of (p_pts s) [] (ccen k) (crad k)) /\
  pairwise (p_poi s :: add).
Proof.
  intros s pi n goal add So Ne P0 Pc E. unfold additional_poles in E.
  destruct (more_poles n pi _ s [p_poi s] _) as [all|] eqn:Em; [|discriminate]. cbn [rbind] in E.
  eapply more_ok in Em; auto.
  - destruct Em as (ad & -> & L & G & P). cbn [tl app] in *.
    destruct (sort_poles_ok (length ad) (p_poi s) [] ad (Nat.le_refl _)) as (r & E' & Pr). rewrite E' in E. injection E as ->. cbn [app] in Pr.
    split; [rewrite (Permutation_length Pr); exact L|]. split.
    + intros k K. apply G. destruct K as [<-|K]; [left; reflexivity|right; eapply Permutation_in; eauto].
    + eapply pairwise_perm; [|exact P]. apply perm_skip, Permutation_sym, Pr.
  - discriminate.
  - intros k [<-|[]]. auto.
  - cbn. split; [intros k []|exact I].
Qed.

(** *** as stated in Properties_Pole.v *)
Theorem pole_good : forall depth s poles c, sound_poly s -> p_pts s <> [] ->
  (forall k, In k poles -> 0 <= crad k) -> next_pole depth s poles = Ok c -> good_pole (p_pts s) poles c.
Proof.
  intros depth s poles c So Ne Pn E. destruct (next_pole_ok s poles So Ne Pn depth) as (K & _).
  destruct (K c E). apply clear_good; assumption.
Qed.
Theorem pole_near : forall depth s poles c p r, sound_poly s -> p_pts s <> [] ->
  (forall k, In k poles -> 0 <= crad k) -> next_pole depth s poles = Ok c -> clear_of (p_pts s) poles p r ->
  r <= crad c + resolution (p_bbox s) depth.
Proof.
  intros depth s poles c p r So Ne Pn E C. destruct (next_pole_ok s poles So Ne Pn depth) as (_ & K & _). eauto.
Qed.
