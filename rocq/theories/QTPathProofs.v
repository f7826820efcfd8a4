(** An edge of a hazard is found from every leaf that can be reached by a chain of
    quadrants each of which meets that edge.  Holds for every [Num F]. *)
From Coq Require Import List Bool Arith Lia.
From Verif Require Import Base Num GeoModel HazardModel QTModel BaseProofs HazVecProofs QTProofs.
Import ListNotations.

Section Path.
  Context {F : Type} {N : Num F} {D : Type} {ED : EqD D}.
  Local Notation rect := (rect F).
  Local Notation poly := (poly F).
  Local Notation arc := (arc F).
  Local Notation presence := (presence F).
  Local Notation partial := (partial F).
  Local Notation qth := (qth F D).
  Local Notation query := (query F).

  Definition idx (p : partial) : list nat :=
    match pa_edges p with REAll => edge_indices (a_obj (pa_shape p)) | RESome l => l end.
  Definition has (a : arc) (i : nat) (o : option presence) : Prop :=
    exists p l, o = Some (PPartial p) /\ pa_shape p = a /\ pa_edges p = RESome l /\ In i l.

  Lemma add_has : forall a i k e quad o o', has a i o -> add_edge_q a k e quad o = Ok o' -> has a i o'.
  Proof.
    intros a i k e quad o o' (p & l & -> & Ea & El & Hi). unfold add_edge_q. destruct (re_collides quad e).
    - unfold add_edge_index. rewrite El. cbn [rbind]. intros [= <-]. eexists. eexists. split; [reflexivity|].
      cbn [pa_shape pa_edges]. repeat split; [exact Ea|]. apply in_or_app; left; exact Hi.
    - intros [= <-]. exists p, l. auto.
  Qed.
  Lemma add_new : forall a i e quad o o', qp_inv a o -> re_collides quad e = true -> add_edge_q a i e quad o = Ok o' -> has a i o'.
  Proof.
    intros a i e quad o o' I Hc. unfold add_edge_q. rewrite Hc. destruct o as [[|p|]|]; cbn in I; try contradiction.
    - destruct I as (Ea & I). unfold add_edge_index. destruct (pa_edges p) as [|l] eqn:El; [contradiction|]. cbn [rbind]. intros [= <-].
      eexists. eexists. split; [reflexivity|]. cbn [pa_shape pa_edges]. repeat split; [exact Ea|]. apply in_or_app; right; left; reflexivity.
    - intros [= <-]. eexists. eexists. split; [reflexivity|]. repeat split. left; reflexivity.
  Qed.
  Lemma add_edges_has : forall a quads i j l qp, wf_poly (a_obj a) -> (forall i, In i l -> i < n_points (a_obj a)) -> qp_all a qp -> j < 4 ->
    re_collides (q4get quads j) (edge_at (a_obj a) i) = true -> In i l \/ has a i (q4get qp j) ->
    forall qp', rfold (add_edge_to_q_presences a quads) l qp = Ok qp' -> has a i (q4get qp' j).
  Proof.
    intros a quads i j l qp W. revert qp. induction l as [|x l IH]; intros qp Hl I Hj Hc Hx qp' E.
    - cbn [rfold] in E. injection E as <-. destruct Hx as [[]|Hx]. exact Hx.
    - destruct I as (I0 & I1 & I2 & I3). assert (Hi : x < n_points (a_obj a)) by (apply Hl; left; reflexivity).
      cbn [rfold] in E. unfold add_edge_to_q_presences at 1 in E. rewrite (get_edge_at _ x W Hi) in E. cbn [rbind] in E.
      destruct (add_edge_q_ok a x (edge_at (a_obj a) x) (qa quads) _ I0 Hi) as (p0 & E0 & J0).
      destruct (add_edge_q_ok a x (edge_at (a_obj a) x) (qb quads) _ I1 Hi) as (p1 & E1 & J1).
      destruct (add_edge_q_ok a x (edge_at (a_obj a) x) (qc quads) _ I2 Hi) as (p2 & E2 & J2).
      destruct (add_edge_q_ok a x (edge_at (a_obj a) x) (qd quads) _ I3 Hi) as (p3 & E3 & J3).
      rewrite E0, E1, E2, E3 in E. cbn [rbind] in E.
      assert (Step : In i l \/ has a i (q4get (Q4 p0 p1 p2 p3) j)).
      { destruct Hx as [[->|Hx]|Hx].
        - right. destruct j as [|[|[|[|j]]]]; try lia; cbn [q4get qa qb qc qd] in *.
          + exact (add_new a i _ _ _ _ I0 Hc E0). + exact (add_new a i _ _ _ _ I1 Hc E1).
          + exact (add_new a i _ _ _ _ I2 Hc E2). + exact (add_new a i _ _ _ _ I3 Hc E3).
        - left; exact Hx.
        - right. destruct j as [|[|[|[|j]]]]; try lia; cbn [q4get qa qb qc qd] in *.
          + exact (add_has a i _ _ _ _ _ Hx E0). + exact (add_has a i _ _ _ _ _ Hx E1).
          + exact (add_has a i _ _ _ _ _ Hx E2). + exact (add_has a i _ _ _ _ _ Hx E3). }
      apply (IH (Q4 p0 p1 p2 p3)); auto.
      + intros; apply Hl; right; assumption.
      + repeat split; assumption.
  Qed.

  Lemma con_has : forall (h : qth) p bb i j, wf_qth all_alive h -> q_pres h = PPartial p -> In i (idx p) -> j < 4 ->
    re_collides (q4get (quadrants bb) j) (edge_at (a_obj (pa_shape p)) i) = true ->
    (forall k, k < 4 -> k <> j -> relation_to (p_bbox (a_obj (pa_shape p))) (q4get (quadrants bb) k) <> Enclosed) ->
    exists p', con bb j h = Some (Qh (q_ent h) (PPartial p') (q_act h)) /\ pa_shape p' = pa_shape p /\ In i (idx p').
  Proof.
    intros h p bb i j W Ep Hi Hj Hc Hne. unfold con, constrict, wf_qth in *. rewrite Ep in *. destruct W as (_ & W & I).
    unfold shape_arc, all_alive. cbn [rbind]. set (a := pa_shape p) in *. set (quads := quadrants bb) in *.
    destruct (position (georel_eqb Enclosed) _) as [k|] eqn:P.
    - apply position_some in P as (l1 & x & l2 & El & Lk & Px & _).
      assert (Hk : k < 4). { apply (f_equal (@length _)) in El. rewrite app_length in El. simpl in El. lia. }
      assert (k = j) as ->.
      { destruct (Nat.eq_dec k j) as [|Nk]; [assumption|exfalso]. apply (Hne k Hk Nk).
        assert (E : nth_error (q4list (q4map (fun q => relation_to (p_bbox (a_obj a)) q) quads)) k = Some x).
        { rewrite El, nth_error_app2, Lk, Nat.sub_diag by lia. reflexivity. }
        assert (x = Enclosed) as -> by (destruct x; cbn in Px; congruence).
        destruct k as [|[|[|[|k]]]]; try lia; cbn in E; injection E as E; exact E. }
      cbn [rbind]. rewrite <- Ep.
      exists p. split; [|split; [reflexivity|exact Hi]].
      destruct j as [|[|[|[|j]]]]; try lia; cbn [q4set q4get qa qb qc qd expect rbind]; rewrite Ep; reflexivity.
    - assert (Hl : forall x, In x (idx p) -> x < n_points (a_obj a)).
      { intros x Hx. unfold idx in Hx. destruct (pa_edges p) as [|l]; [apply in_seq in Hx; fold a in Hx; lia|]. apply I; exact Hx. }
      fold (idx p).
      destruct (add_edges_ok a quads (idx p) (Q4 None None None None) W Hl) as (qp & E & Q); [repeat split; exact Logic.I|].
      change (match pa_edges p with REAll => edge_indices (a_obj a) | RESome l => l end) with (idx p). rewrite E. cbn [rbind].
      pose proof (add_edges_has a quads i j (idx p) (Q4 None None None None) W Hl ltac:(repeat split; exact Logic.I) Hj Hc (or_introl Hi) qp E) as (p' & l' & Ej & Ea & El & Hi').
      set (pos := ent_position (q_ent h)).
      assert (I0 : forall j, j < 4 -> qp_inv2 a (q4get qp j)).
      { destruct Q as (Q0 & Q1 & Q2 & Q3). intros [|[|[|[|j']]]] Hj'; simpl; try lia; apply qp_inv_inv2; assumption. }
      unfold rfold.
      edestruct (resolve_ok pos (a_obj a) quads a qp 0) as (qp0 & -> & J0 & (p0 & K0) & L0); [exact W|lia|exact I0|]. cbn [rbind].
      edestruct (resolve_ok pos (a_obj a) quads a qp0 1) as (qp1 & -> & J1 & (p1 & K1) & L1); [exact W|lia|exact J0|]. cbn [rbind].
      edestruct (resolve_ok pos (a_obj a) quads a qp1 2) as (qp2 & -> & J2 & (p2 & K2) & L2); [exact W|lia|exact J1|]. cbn [rbind].
      edestruct (resolve_ok pos (a_obj a) quads a qp2 3) as (qp3 & -> & J3 & (p3 & K3) & L3); [exact W|lia|exact J2|]. cbn [rbind].
      assert (Fj : q4get qp3 j = Some (PPartial p')) by (apply L3, L2, L1, L0; assumption).
      assert (F0 : q4get qp3 0 = Some p0) by (apply L3, L2, L1; try lia; exact K0).
      assert (F1 : q4get qp3 1 = Some p1) by (apply L3, L2; try lia; exact K1).
      assert (F2 : q4get qp3 2 = Some p2) by (apply L3; try lia; exact K2).
      cbn [q4get] in F0, F1, F2, K3. rewrite F0, F1, F2, K3. cbn [expect rbind].
      exists p'. split; [|split; [exact Ea|unfold idx; rewrite El; exact Hi']].
      destruct j as [|[|[|[|j]]]]; try lia; cbn [q4get qa qb qc qd] in *;
        [rewrite F0 in Fj|rewrite F1 in Fj|rewrite F2 in Fj|rewrite K3 in Fj]; injection Fj as ->; reflexivity.
  Qed.

  (** the chain of quadrants *)
  Fixpoint chain (lvl : nat) (bb : rect) (q : query) (s : poly) (g : edge F) : Prop :=
    qy_rect q bb = true /\
    match lvl with
    | 0 => qy_rect q (p_bbox s) = true
    | S l => exists j, j < 4 /\ re_collides (q4get (quadrants bb) j) g = true /\
        (forall k, k < 4 -> k <> j -> relation_to (p_bbox s) (q4get (quadrants bb) k) <> Enclosed) /\
        chain l (q4get (quadrants bb) j) q s g
    end.
  Lemma chain_hits : forall lvl bb q (h : qth) p i, wf_qth all_alive h -> q_pres h = PPartial p -> In i (idx p) ->
    qy_edge q (edge_at (a_obj (pa_shape p)) i) = true ->
    chain lvl bb q (a_obj (pa_shape p)) (edge_at (a_obj (pa_shape p)) i) -> hits lvl bb q h = true.
  Proof.
    induction lvl as [|l IH]; intros bb q h p i W Ep Hi Hq C; cbn [hits chain] in *; rewrite Ep.
    - destruct C as (-> & Hb). cbn [andb]. unfold pcol, idx in *. rewrite Hb.
      destruct (pa_edges p) as [|l]; [|rewrite orb_true_r]; cbn [andb]; apply existsb_exists; eauto.
    - destruct C as (-> & j & Hj & Hc & Hne & C). cbn [andb].
      destruct (con_has h p bb i j W Ep Hi Hj Hc Hne) as (p' & E & Es & Hi').
      apply existsb_exists. exists j. split; [destruct j as [|[|[|[|j]]]]; cbn; auto; lia|]. rewrite E.
      pose proof (con_spec all_alive h bb j W Hj) as K. rewrite E in K. destruct K as (_ & _ & K).
      apply (IH _ q _ p' i K eq_refl Hi'); rewrite Es; assumption.
  Qed.
End Path.
