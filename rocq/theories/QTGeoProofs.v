(** The quadtree in exact real arithmetic: what a hazard stored in a node says
    about the points of the node's rectangle. *)
From Coq Require Import Reals List Bool Lra Psatz Lia Permutation.
From Verif Require Import Base Num GeoModel HazardModel QTModel BaseProofs HazVecProofs QTProofs
  GeoSpec ParityProofs GeoPrimProofs GeoRectProofs PipProofs.
Import ListNotations.
Local Open Scope R_scope.
#[local] Existing Instance RNum.

(** the points (off the border) occupied by a hazard with outline [l] *)
Definition occupied (pos : geopos) (l : list rpoint) (p : rpoint) : Prop :=
  even_odd l p = match pos with Interior => true | Exterior => false end.
Lemma occupied_dec : forall pos l p, occupied pos l p \/ ~ occupied pos l p.
Proof. intros. unfold occupied. destruct (Bool.bool_dec (even_odd l p) (match pos with Interior => true | Exterior => false end)); auto. Qed.

Section Tree.
  Context {D : Type} {ED : EqD D} {BS : BSearch}.
  Local Notation qth := (qth R D).
  Variable s : poly R.
  Variable pos : geopos.
  Hypothesis Ws : wf_poly s.
  Hypothesis Bs : boxed s.
  Local Notation brd := (on_border (p_pts s)).
  Local Notation occ := (occupied pos (p_pts s)).

  Definition idx (ph : partial R) : list nat :=
    match pa_edges ph with REAll => edge_indices s | RESome l => l end.
  (** the edges listed are all that meet the rectangle *)
  Definition complete (bb : rrect) (ph : partial R) : Prop :=
    forall i x, (i < n_points s)%nat -> on_seg (edge_at s i) x -> in_rect bb x -> In i (idx ph).
  Definition gok (bb : rrect) (h : qth) : Prop :=
    ent_position (q_ent h) = pos /\
    match q_pres h with
    | PPartial p => a_obj (pa_shape p) = s /\ wf_partial all_alive p /\ complete bb p
    | PEntire => forall p, in_rect bb p -> ~ brd p /\ occ p
    | PNone => False
    end.
  (** the outline of a bin is not contained in one quadrant *)
  Definition spread (bb : rrect) : Prop := pos = Exterior ->
    forall j, (j < 4)%nat -> exists z, in_rect (p_bbox s) z /\ ~ in_rect (q4get (quadrants bb) j) z.

  Lemma spread_quad : forall bb j, proper bb -> (j < 4)%nat -> spread bb -> spread (q4get (quadrants bb) j).
  Proof.
    intros bb j Pr Hj S E k Hk. destruct (S E j Hj) as (z & Iz & Nz). exists z. split; [exact Iz|].
    intros Q. apply Nz. apply (quad_sub (q4get (quadrants bb) j) k); [apply quad_i; assumption|assumption|exact Q].
  Qed.

  Lemma brd_edge : forall x, brd x <-> exists i, (i < n_points s)%nat /\ on_seg (edge_at s i) x.
  Proof.
    intros x. split.
    - intros (e & He & O). apply in_ring_index in He as (i & Hi & ->); eauto.
    - intros (i & Hi & O). exists (edge_at s i). split; [|exact O]. apply in_ring_index; eauto.
  Qed.
  Lemma brd_box : forall x, brd x -> in_rect (p_bbox s) x.
  Proof. intros x B. apply (border_in_box _ (p_pts s)); [apply Bs|exact B]. Qed.

  (** *** distributing the edges *)
  Definition fpres (a : arc R) (l : list nat) : option (presence R) :=
    match l with [] => None | _ => Some (PPartial (Par a (RESome l))) end.
  Lemma fpres_snoc : forall a l i, fpres a (l ++ [i]) = Some (PPartial (Par a (RESome (l ++ [i])))).
  Proof. intros a [|x l] i; reflexivity. Qed.
  Lemma add_edge_q_eq : forall a i quad l e,
    add_edge_q a i e quad (fpres a l) = Ok (fpres a (l ++ (if re_collides quad e then [i] else []))).
  Proof.
    intros a i quad l e. unfold add_edge_q. destruct (re_collides quad e).
    - rewrite fpres_snoc. destruct l; reflexivity.
    - rewrite app_nil_r. reflexivity.
  Qed.
  Definition meets (quads : q4 rrect) (j i : nat) : bool := re_collides (q4get quads j) (edge_at s i).
  Lemma add_edges_eq : forall a quads l pre, a_obj a = s -> (forall i, In i l -> (i < n_points s)%nat) ->
    rfold (add_edge_to_q_presences a quads) l
      (Q4 (fpres a (filter (meets quads 0) pre)) (fpres a (filter (meets quads 1) pre))
          (fpres a (filter (meets quads 2) pre)) (fpres a (filter (meets quads 3) pre)))
    = Ok (Q4 (fpres a (filter (meets quads 0) (pre ++ l))) (fpres a (filter (meets quads 1) (pre ++ l)))
          (fpres a (filter (meets quads 2) (pre ++ l))) (fpres a (filter (meets quads 3) (pre ++ l)))).
  Proof.
    intros a quads l. induction l as [|i l IH]; intros pre Ea Hl; cbn [rfold].
    - rewrite app_nil_r. reflexivity.
    - unfold add_edge_to_q_presences at 1. rewrite Ea.
      rewrite (get_edge_at s i Ws) by (apply Hl; left; reflexivity). cbn [rbind qa qb qc qd].
      rewrite !add_edge_q_eq. cbn [rbind].
      assert (F : forall j, filter (meets quads j) pre ++ (if re_collides (q4get quads j) (edge_at s i) then [i] else [])
         = filter (meets quads j) (pre ++ [i])).
      { intros j. rewrite filter_app. simpl. unfold meets at 3.
        destruct (re_collides (q4get quads j) (edge_at s i)); reflexivity. }
      pose proof (F 0%nat) as F0. pose proof (F 1%nat) as F1. pose proof (F 2%nat) as F2. pose proof (F 3%nat) as F3.
      cbn [q4get] in F0, F1, F2, F3. rewrite F0, F1, F2, F3.
      rewrite IH; [|exact Ea|intros; apply Hl; right; assumption].
      rewrite <- app_assoc. reflexivity.
  Qed.

  (** *** quadrants without edges *)
  Definition clear (r : rrect) : Prop := forall x, in_rect r x -> ~ brd x.
  Lemma clear_const : forall r p q, clear r -> in_rect r p -> in_rect r q -> even_odd (p_pts s) p = even_odd (p_pts s) q.
  Proof.
    intros r p q C Ip Iq. apply even_odd_path. intros x O. apply C. apply (seg_in_rect r p q); assumption.
  Qed.
  Lemma centroid_in : forall r, proper r -> in_rect r (r_centroid r).
  Proof. intros r (A & B). split; simpl; unfold f2; unr; lra. Qed.
  (** the right value for such a quadrant *)
  Definition rightp (r : rrect) : presence R :=
    match pos, even_odd (p_pts s) (r_centroid r) with
    | Interior, true | Exterior, false => PEntire
    | _, _ => PNone
    end.
  Lemma rightp_entire : forall r, proper r -> clear r -> rightp r = PEntire -> forall p, in_rect r p -> ~ brd p /\ occ p.
  Proof.
    intros r Pr C E p Ip. split; [apply C; exact Ip|]. unfold occupied.
    rewrite (clear_const r p (r_centroid r) C Ip (centroid_in r Pr)).
    unfold rightp in E. destruct pos, (even_odd (p_pts s) (r_centroid r)); congruence.
  Qed.
  Lemma rightp_none : forall r, proper r -> clear r -> rightp r = PNone -> forall p, in_rect r p -> ~ occ p.
  Proof.
    intros r Pr C E p Ip. unfold occupied.
    rewrite (clear_const r p (r_centroid r) C Ip (centroid_in r Pr)).
    unfold rightp in E. destruct pos, (even_odd (p_pts s) (r_centroid r)); congruence.
  Qed.
  Lemma rightp_cases : forall r, rightp r = PEntire \/ rightp r = PNone.
  Proof. intros r. unfold rightp. destruct pos, (even_odd _ _); auto. Qed.

  Section Resolve.
    Variable bb : rrect.
    Hypothesis Pbb : proper bb.
    Local Notation quads := (quadrants bb).
    Local Notation quad := (q4get quads).
    Variable orig : q4 (option (presence R)).
    Hypothesis Horig : forall j, (j < 4)%nat ->
      (q4get orig j = None /\ clear (quad j)) \/ exists p, q4get orig j = Some (PPartial p).
    Definition rinv (qp : q4 (option (presence R))) : Prop := forall j, (j < 4)%nat ->
      q4get qp j = q4get orig j \/ (q4get orig j = None /\ q4get qp j = Some (rightp (quad j))).

    Lemma neighbor_lt : forall i, (i < 4)%nat -> (fst (quadrant_neighbors i) < 4)%nat /\ (snd (quadrant_neighbors i) < 4)%nat
      /\ fst (quadrant_neighbors i) <> i /\ snd (quadrant_neighbors i) <> i.
    Proof. intros [|[|[|[|i]]]] H; simpl; lia. Qed.
    Lemma neighbor_same : forall i n, (i < 4)%nat -> (n < 4)%nat -> i <> n ->
      (fst (quadrant_neighbors i) = n \/ snd (quadrant_neighbors i) = n) ->
      clear (quad i) -> clear (quad n) -> rightp (quad i) = rightp (quad n).
    Proof.
      intros i n Hi Hn N T Ci Cn.
      destruct (proj2 (neighbors_ok bb i n Pbb Hi Hn N) T) as (p & _ & _ & Ip & In_ & _).
      unfold rightp.
      rewrite <- (clear_const _ p _ Ci Ip (centroid_in _ (proj1 (quad_i bb i Pbb Hi)))).
      rewrite <- (clear_const _ p _ Cn In_ (centroid_in _ (proj1 (quad_i bb n Pbb Hn)))).
      reflexivity.
    Qed.
    Lemma resolve_round : forall qp i, (i < 4)%nat -> rinv qp ->
      exists qp', resolve_quadrant pos s quads qp i = Ok qp' /\ rinv qp' /\ (exists x, q4get qp' i = Some x) /\
        (forall j x, (j < 4)%nat -> q4get qp j = Some x -> q4get qp' j = Some x).
    Proof.
      intros qp i Hi I. unfold resolve_quadrant. destruct (q4get qp i) as [x|] eqn:Q.
      { exists qp. split; [reflexivity|]. split; [exact I|]. split; [eauto|auto]. }
      assert (Oi : q4get orig i = None /\ clear (quad i)).
      { destruct (I i Hi) as [E|(_ & E)]; [|congruence]. rewrite Q in E.
        destruct (Horig i Hi) as [H|(p & H)]; [exact H|congruence]. }
      destruct Oi as (Oi & Ci).
      assert (G : forall x, x = rightp (quad i) ->
        exists qp', Ok (q4set qp i (Some x)) = Ok qp' /\ rinv qp' /\ (exists x, q4get qp' i = Some x) /\
        (forall j x, (j < 4)%nat -> q4get qp j = Some x -> q4get qp' j = Some x)).
      { intros x ->. eexists; split; [reflexivity|]. split; [|split].
        - intros j Hj. destruct (Nat.eq_dec i j) as [->|Nij].
          + right. split; [exact Oi|]. apply q4get_set_eq; exact Hj.
          + rewrite q4get_set_neq by assumption. apply I; exact Hj.
        - rewrite q4get_set_eq by exact Hi. eauto.
        - intros j x Hj Ej. destruct (Nat.eq_dec i j) as [->|Nij]; [congruence|].
          rewrite q4get_set_neq by assumption. exact Ej. }
      destruct (neighbor_lt i Hi) as (L0 & L1 & N0 & N1).
      destruct (quadrant_neighbors i) as [n0 n1] eqn:EN. cbn [fst snd] in *.
      assert (K : forall n x, (n < 4)%nat -> n <> i -> (n0 = n \/ n1 = n) ->
         q4get qp n = Some x -> (forall p, x <> PPartial p) -> x = rightp (quad i)).
      { intros n x Hn Nn T Ex Np. destruct (I n Hn) as [E|(On & E)].
        - rewrite Ex in E. destruct (Horig n Hn) as [(H & _)|(p & H)]; [congruence|]. rewrite H in E.
          injection E as E. destruct (Np p E).
        - rewrite E in Ex. injection Ex as <-.
          destruct (Horig n Hn) as [(_ & Cn)|(p & H)]; [|congruence].
          symmetry. apply neighbor_same; auto; rewrite EN; exact T. }
      destruct (is_entire (q4get qp n0)) eqn:E0.
      { destruct (q4get qp n0) as [[]|] eqn:Q0; try discriminate. apply G.
        apply (K n0); auto. discriminate. }
      destruct (is_entire (q4get qp n1)) eqn:E1.
      { destruct (q4get qp n1) as [[]|] eqn:Q1; try discriminate. apply G.
        apply (K n1); auto. discriminate. }
      destruct (is_pnone (q4get qp n0)) eqn:E2.
      { destruct (q4get qp n0) as [[]|] eqn:Q0; try discriminate. apply G.
        apply (K n0); auto. discriminate. }
      destruct (is_pnone (q4get qp n1)) eqn:E3.
      { destruct (q4get qp n1) as [[]|] eqn:Q1; try discriminate. apply G.
        apply (K n1); auto. discriminate. }
      rewrite pip; [|exact Ws|exact Bs|].
      - cbn [rbind]. apply G. unfold rightp. reflexivity.
      - apply Ci. apply centroid_in. apply quad_i; assumption.
    Qed.
    Lemma resolve_all : forall qp, rinv qp ->
      exists qp', rfold (resolve_quadrant pos s quads) [0; 1; 2; 3]%nat qp = Ok qp' /\ rinv qp' /\
        forall j, (j < 4)%nat -> exists x, q4get qp' j = Some x.
    Proof.
      intros qp I0. unfold rfold.
      destruct (resolve_round qp 0 ltac:(lia) I0) as (q0 & -> & I1 & (x0 & X0) & M0). cbn [rbind].
      destruct (resolve_round q0 1 ltac:(lia) I1) as (q1 & -> & I2 & (x1 & X1) & M1). cbn [rbind].
      destruct (resolve_round q1 2 ltac:(lia) I2) as (q2 & -> & I3 & (x2 & X2) & M2). cbn [rbind].
      destruct (resolve_round q2 3 ltac:(lia) I3) as (q3 & -> & I4 & (x3 & X3) & M3). cbn [rbind].
      exists q3. split; [reflexivity|]. split; [exact I4|].
      intros [|[|[|[|j]]]] Hj; [| | | |lia].
      - exists x0. apply M3, M2, M1; [lia..|exact X0].
      - exists x1. apply M3, M2; [lia..|exact X1].
      - exists x2. apply M3; [lia|exact X2].
      - exists x3. exact X3.
    Qed.
  End Resolve.

  (** *** a constricted hazard *)
  Lemma wf_idx : forall ph i, a_obj (pa_shape ph) = s -> wf_partial all_alive ph -> In i (idx ph) -> (i < n_points s)%nat.
  Proof.
    intros ph i Ea (_ & _ & W) Hi. unfold idx in Hi. rewrite Ea in W. destruct (pa_edges ph).
    - apply in_seq in Hi. lia.
    - apply W. exact Hi.
  Qed.
  Lemma filter_nil : forall {A} (f : A -> bool) l, filter f l = [] -> forall x, In x l -> f x = false.
  Proof.
    intros A f l H x Hx. destruct (f x) eqn:E; [|reflexivity]. exfalso.
    assert (Q : In x (filter f l)) by (apply filter_In; auto). rewrite H in Q. destruct Q.
  Qed.
  Lemma con_geo : forall bb h ph, proper bb -> spread bb -> gok bb h -> q_pres h = PPartial ph ->
    (forall j, (j < 4)%nat ->
      match con bb j h with
      | Some h' => gok (q4get (quadrants bb) j) h'
      | None => forall p, in_rect (q4get (quadrants bb) j) p -> ~ brd p -> ~ occ p
      end) /\
    (forall x, in_rect bb x -> brd x -> exists j h', (j < 4)%nat /\ in_rect (q4get (quadrants bb) j) x /\ con bb j h = Some h').
  Proof.
    intros bb h ph Pbb Sp (Ep & G) Eh. rewrite Eh in G. destruct G as (Es & Wp & Cp).
    unfold con, constrict. rewrite Eh. unfold shape_arc. change (all_alive (a_ptr (pa_shape ph))) with true. cbn [rbind]. rewrite Es.
    destruct (position (georel_eqb Enclosed) _) as [k|] eqn:P.
    - (* enclosed in quadrant k *)
      assert (Hk : (k < 4)%nat /\ relation_to (p_bbox s) (q4get (quadrants bb) k) = Enclosed).
      { apply position_some in P as (l1 & x & l2 & El & Lk & Hx & _). unfold q4map, q4list in El. cbn [qa qb qc qd] in El.
        assert (x = Enclosed) by (destruct x; try discriminate; reflexivity). subst x.
        destruct l1 as [|y1 [|y2 [|y3 [|y4 l1]]]]; simpl in El; injection El; intros; simpl in Lk; subst k;
          try (split; [lia|]; simpl; congruence).
        destruct l1; discriminate. }
      destruct Hk as (Hk & Rk).
      assert (Sub : forall p, in_rect (p_bbox s) p -> in_rect (q4get (quadrants bb) k) p).
      { pose proof (relation_to_ok (p_bbox s) (q4get (quadrants bb) k)) as RR. rewrite Rk in RR.
        apply RR; apply proper_nonempty; [apply Bs|apply quad_i; assumption]. }
      assert (NE : pos = Interior).
      { destruct pos eqn:E; [|reflexivity]. exfalso. destruct (Sp E k Hk) as (z & Iz & Nz). apply Nz, Sub, Iz. }
      cbn [rbind].
      set (qp := q4set _ k _).
      assert (Ek : q4get qp k = Some (PPartial ph)) by (apply q4get_set_eq; exact Hk).
      assert (Ej : forall j, (j < 4)%nat -> j <> k -> q4get qp j = Some PNone).
      { intros j Hj N. unfold qp. rewrite q4get_set_neq by auto. destruct j as [|[|[|[|j]]]]; try lia; reflexivity. }
      assert (All : forall j, (j < 4)%nat -> exists x, q4get qp j = Some x /\ (j = k /\ x = PPartial ph \/ j <> k /\ x = PNone)).
      { intros j Hj. destruct (Nat.eq_dec j k) as [->|N]; eauto 6. }
      destruct (All 0%nat) as (x0 & A0 & B0); [lia|]. destruct (All 1%nat) as (x1 & A1 & B1); [lia|].
      destruct (All 2%nat) as (x2 & A2 & B2); [lia|]. destruct (All 3%nat) as (x3 & A3 & B3); [lia|].
      simpl in A0, A1, A2, A3. rewrite A0, A1, A2, A3. cbn [expect rbind].
      assert (KK : forall j, (j < 4)%nat -> q4get (Q4 (qth_new (q_ent h) x0 (q_act h)) (qth_new (q_ent h) x1 (q_act h))
           (qth_new (q_ent h) x2 (q_act h)) (qth_new (q_ent h) x3 (q_act h))) j =
           if Nat.eqb j k then Some (Qh (q_ent h) (PPartial ph) (q_act h)) else None).
      { intros j Hj. destruct j as [|[|[|[|j]]]]; try lia; cbn [q4get qa qb qc qd];
        [destruct B0 as [(Z & ->)|(Z & ->)]|destruct B1 as [(Z & ->)|(Z & ->)]|destruct B2 as [(Z & ->)|(Z & ->)]|destruct B3 as [(Z & ->)|(Z & ->)]];
        match goal with
        | |- context [Nat.eqb ?a k] => destruct (Nat.eqb_spec a k); try congruence; reflexivity end. }
      split.
      + intros j Hj. rewrite KK by exact Hj. destruct (Nat.eqb_spec j k) as [->|N].
        * split; [exact Ep|]. cbn [q_pres]. split; [exact Es|]. split; [exact Wp|].
          intros i x Hi O Ix. apply (Cp i x Hi O). apply (quad_sub bb k); assumption.
        * intros p Ip Nb Oc. unfold occupied in Oc. rewrite NE in Oc.
          pose proof (even_odd_box _ _ _ (proj2 Bs) Nb Oc) as Op.
          apply (quad_disjoint bb j k p Pbb Hj Hk N Ip).
          pose proof (proj1 (rect_sub (p_bbox s) _ (proper_nonempty _ (proj1 Bs))) Sub). 
          destruct Op as (OX & OY). split; lra.
      + intros x Ix Bx. exists k. eexists. split; [exact Hk|]. split; [apply Sub, brd_box, Bx|].
        rewrite KK by exact Hk. rewrite Nat.eqb_refl. reflexivity.
    - clear P.
      set (idx' := match pa_edges ph with REAll => edge_indices s | RESome l => l end).
      change idx' with (idx ph). 
      pose proof (add_edges_eq (pa_shape ph) (quadrants bb) (idx ph) [] Es (fun i Hi => wf_idx ph i Es Wp Hi)) as AE.
      cbn [filter fpres app] in AE. rewrite AE. clear AE. cbn [rbind].
      set (orig := Q4 _ _ _ _).
      assert (Oj : forall j, (j < 4)%nat -> q4get orig j = fpres (pa_shape ph) (filter (meets (quadrants bb) j) (idx ph))).
      { intros j Hj. destruct j as [|[|[|[|j]]]]; try lia; reflexivity. }
      assert (NB : forall j, (j < 4)%nat -> forall x i, (i < n_points s)%nat -> on_seg (edge_at s i) x ->
         in_rect (q4get (quadrants bb) j) x -> In i (filter (meets (quadrants bb) j) (idx ph))).
      { intros j Hj x i Hi O Ix. apply filter_In. split.
        - apply (Cp i x Hi O). apply (quad_sub bb j); assumption.
        - unfold meets. apply re_collides_iff; [apply quad_i; assumption|]. eauto. }
      assert (HO : forall j, (j < 4)%nat -> (q4get orig j = None /\ clear (q4get (quadrants bb) j)) \/ exists p, q4get orig j = Some (PPartial p)).
      { intros j Hj. rewrite Oj by exact Hj. destruct (filter (meets (quadrants bb) j) (idx ph)) as [|i l] eqn:Fj.
        - left. split; [reflexivity|]. intros x Ix Bx. apply brd_edge in Bx as (i & Hi & O).
          specialize (NB j Hj x i Hi O Ix). rewrite Fj in NB. destruct NB.
        - right. eexists. reflexivity. }
      rewrite Ep.
      destruct (resolve_all bb Pbb orig HO orig) as (qp & -> & RI & Al).
      { intros j Hj. left. reflexivity. }
      cbn [rbind].
      destruct (Al 0%nat) as (x0 & A0); [lia|]. destruct (Al 1%nat) as (x1 & A1); [lia|].
      destruct (Al 2%nat) as (x2 & A2); [lia|]. destruct (Al 3%nat) as (x3 & A3); [lia|].
      assert (A0' := A0); assert (A1' := A1); assert (A2' := A2); assert (A3' := A3).
      simpl in A0', A1', A2', A3'. rewrite A0', A1', A2', A3'. cbn [expect rbind].
      assert (KK : forall j x, (j < 4)%nat -> q4get qp j = Some x -> q4get (Q4 (qth_new (q_ent h) x0 (q_act h)) (qth_new (q_ent h) x1 (q_act h))
           (qth_new (q_ent h) x2 (q_act h)) (qth_new (q_ent h) x3 (q_act h))) j = qth_new (q_ent h) x (q_act h)).
      { intros j x Hj Ex. destruct j as [|[|[|[|j]]]]; try lia; cbn [q4get qa qb qc qd]; congruence. }
      split.
      + intros j Hj. destruct (Al j Hj) as (x & Ex). rewrite (KK j x Hj Ex).
        destruct (HO j Hj) as [(On & Cj)|(p & Op)].
        * destruct (RI j Hj) as [E|(_ & E)]; [congruence|]. assert (x = rightp (q4get (quadrants bb) j)) by congruence. subst x.
          destruct (rightp_cases (q4get (quadrants bb) j)) as [R|R]; rewrite R; cbn [qth_new].
          -- split; [exact Ep|]. cbn [q_pres]. apply rightp_entire; auto. apply quad_i; assumption.
          -- intros p Ip _. apply (rightp_none _ (proj1 (quad_i bb j Pbb Hj)) Cj R p Ip).
        * destruct (RI j Hj) as [E|(E & _)]; [|congruence]. rewrite E, Oj in Ex by exact Hj. rewrite Oj in Op by exact Hj.
          destruct (filter (meets (quadrants bb) j) (idx ph)) as [|i l] eqn:Fj; [discriminate|].
          cbn [fpres] in Ex. injection Ex as <-. cbn [qth_new]. split; [exact Ep|]. cbn [q_pres pa_shape].
          split; [exact Es|]. split.
          -- split; [reflexivity|]. cbn [pa_shape pa_edges]. split; [rewrite Es; exact Ws|]. split; [discriminate|].
             intros i' Hi'. rewrite Es. apply (wf_idx ph i' Es Wp). rewrite <- Fj in Hi'. apply filter_In in Hi' as (Hi' & _). exact Hi'.
          -- intros i' x' Hi' O' Ix'. unfold idx. cbn [pa_edges]. rewrite <- Fj. eapply NB; eauto.
      + intros x Ix Bx. destruct (quad_cover bb x Pbb Ix) as (j & Hj & Ij).
        apply brd_edge in Bx as (i & Hi & O). specialize (NB j Hj x i Hi O Ij).
        destruct (HO j Hj) as [(On & Cj)|(p & Op)].
        { exfalso. apply (Cj x Ij). apply brd_edge. eauto. }
        destruct (RI j Hj) as [E|(E & _)]; [|congruence]. rewrite Op in E.
        exists j. eexists. split; [exact Hj|]. split; [exact Ij|]. rewrite (KK j _ Hj E). reflexivity.
  Qed.

  (** *** queries *)
  Lemma pcol_complete : forall (q : query R) ph i x, a_obj (pa_shape ph) = s -> In i (idx ph) -> in_rect (p_bbox s) x ->
    (forall r, proper r -> in_rect r x -> qy_rect q r = true) -> qy_edge q (edge_at s i) = true -> pcol q ph = true.
  Proof.
    intros q ph i x Es Hi Ix Qr Qe. unfold pcol. rewrite Es.
    assert (B : qy_rect q (p_bbox s) = true) by (apply Qr; [apply Bs|exact Ix]).
    unfold idx in Hi. destruct (pa_edges ph) as [|l]; rewrite B, ?orb_true_r; simpl; apply existsb_exists; eauto.
  Qed.
  Theorem hits_complete : forall lvl bb (q : query R) h i x, proper bb -> spread bb -> gok bb h ->
    in_rect bb x -> (i < n_points s)%nat -> on_seg (edge_at s i) x ->
    (forall r, proper r -> in_rect r x -> qy_rect q r = true) -> qy_edge q (edge_at s i) = true ->
    hits lvl bb q h = true.
  Proof.
    induction lvl as [|l IH]; intros bb q h i x Pbb Sp G Ix Hi O Qr Qe; cbn [hits]; rewrite (Qr bb Pbb Ix); cbn [andb].
    - destruct G as (Ep & G). destruct (q_pres h) as [|ph|]; [contradiction| |reflexivity].
      destruct G as (Es & Wp & Cp). apply (pcol_complete q ph i x); auto.
      + apply (Cp i x); assumption.
      + apply brd_box, brd_edge. eauto.
    - destruct (q_pres h) as [|ph|] eqn:Eh; [destruct G as (_ & G); rewrite Eh in G; contradiction| |reflexivity].
      destruct (con_geo bb h ph Pbb Sp G Eh) as (C1 & C2).
      destruct (C2 x Ix) as (j & h' & Hj & Ij & Ec); [apply brd_edge; eauto|].
      apply existsb_exists. exists j. split; [destruct j as [|[|[|[|j]]]]; simpl; auto; lia|]. rewrite Ec.
      specialize (C1 j Hj). rewrite Ec in C1.
      apply (IH _ q h' i x); auto; [apply quad_i; assumption|apply spread_quad; assumption].
  Qed.
  Theorem hits_sound : forall lvl bb (q : query R) h, proper bb -> spread bb -> gok bb h ->
    hits lvl bb q h = true ->
    (exists i, (i < n_points s)%nat /\ qy_edge q (edge_at s i) = true) \/
    (exists r, proper r /\ qy_rect q r = true /\ forall p, in_rect r p -> in_rect bb p /\ ~ brd p /\ occ p).
  Proof.
    assert (PE : forall bb (q : query R) h, proper bb -> gok bb h -> q_pres h = PEntire -> qy_rect q bb = true ->
      exists r, proper r /\ qy_rect q r = true /\ forall p, in_rect r p -> in_rect bb p /\ ~ brd p /\ occ p).
    { intros bb q h Pbb (Ep & G) E B. rewrite E in G. exists bb. split; [exact Pbb|]. split; [exact B|].
      intros p Ip. split; [exact Ip|]. apply G. exact Ip. }
    induction lvl as [|l IH]; intros bb q h Pbb Sp G H; cbn [hits] in H; apply andb_true_iff in H as (B & H);
      destruct (q_pres h) as [|ph|] eqn:Eh; try discriminate; try (right; eapply PE; eassumption).
    - left. destruct G as (_ & G). rewrite Eh in G. destruct G as (Es & Wp & Cp). unfold pcol in H. rewrite Es in H.
      assert (X : exists i, In i (idx ph) /\ qy_edge q (edge_at s i) = true).
      { unfold idx. destruct (pa_edges ph); apply andb_true_iff in H as (_ & H); apply existsb_exists in H; exact H. }
      destruct X as (i & Hi & Q). exists i. split; [apply (wf_idx ph i Es Wp Hi)|exact Q].
    - destruct (con_geo bb h ph Pbb Sp G Eh) as (C1 & _).
      apply existsb_exists in H as (j & Hj & H).
      assert (Hj' : (j < 4)%nat) by (simpl in Hj; destruct Hj as [<-|[<-|[<-|[<-|[]]]]]; lia).
      specialize (C1 j Hj'). destruct (con bb j h) as [h'|]; [|discriminate].
      destruct (IH (q4get (quadrants bb) j) q h') as [L|(r & Pr & Qr & Hr)]; auto;
        [apply quad_i; assumption|apply spread_quad; assumption|].
      right. exists r. split; [exact Pr|]. split; [exact Qr|]. intros p Ip. destruct (Hr p Ip) as (I1 & I2).
      split; [apply (quad_sub bb j); assumption|exact I2].
  Qed.

  Theorem tri_true : forall lvl bb qr (h : qth),
    proper bb -> spread bb -> gok bb h -> tri lvl bb qr h = TTrue ->
    exists r, proper r /\ qr r = true /\ forall p, in_rect r p -> in_rect bb p /\ ~ brd p /\ occ p.
  Proof.
    induction lvl as [|l IH]; intros bb qr h Pbb Sp G H; cbn [tri] in H; destruct (qr bb) eqn:B; try discriminate;
      destruct (q_pres h) as [|ph|] eqn:Eh; try discriminate;
      try (destruct G as (_ & G); rewrite Eh in G; exists bb; split; [exact Pbb|]; split; [exact B|]; intros p Ip; split; [exact Ip|apply G; exact Ip]).
    destruct (con_geo bb h ph Pbb Sp G Eh) as (C1 & _).
    apply tri_all_true in H. apply in_map_iff in H as (j & H & Hj).
    assert (Hj' : (j < 4)%nat) by (simpl in Hj; destruct Hj as [<-|[<-|[<-|[<-|[]]]]]; lia).
    specialize (C1 j Hj'). destruct (con bb j h) as [h'|]; [|discriminate].
    destruct (IH (q4get (quadrants bb) j) qr h') as (r & Pr & Qr & Hr); auto;
      [apply quad_i; assumption|apply spread_quad; assumption|].
    exists r. split; [exact Pr|]. split; [exact Qr|]. intros p Ip. destruct (Hr p Ip) as (I1 & I2).
    split; [apply (quad_sub bb j); assumption|exact I2].
  Qed.
  Theorem tri_false : forall lvl bb qr (h : qth) p, (forall r, proper r -> in_rect r p -> qr r = true) ->
    proper bb -> spread bb -> gok bb h -> in_rect bb p -> tri lvl bb qr h = TFalse -> ~ brd p /\ ~ occ p.
  Proof.
    assert (J4 : forall j, (j < 4)%nat -> In j [0; 1; 2; 3]%nat).
    { intros [|[|[|[|j]]]] H; simpl; auto; lia. }
    induction lvl as [|l IH]; intros bb qr h p Q Pbb Sp G Ip H; cbn [tri] in H; rewrite (Q bb Pbb Ip) in H;
      destruct (q_pres h) as [|ph|] eqn:Eh; try discriminate;
      try (destruct G as (_ & G); rewrite Eh in G; contradiction).
    destruct (con_geo bb h ph Pbb Sp G Eh) as (C1 & C2).
    rewrite tri_all_false in H.
    assert (T : forall j h', (j < 4)%nat -> con bb j h = Some h' -> tri l (q4get (quadrants bb) j) qr h' = TFalse).
    { intros j h' Hj Ec. specialize (H (tri l (q4get (quadrants bb) j) qr h')). apply H. apply in_map_iff. exists j.
      rewrite Ec. split; [reflexivity|apply J4; exact Hj]. }
    assert (Nb : ~ brd p).
    { intros Bp. destruct (C2 p Ip Bp) as (j & h' & Hj & Ij & Ec). specialize (C1 j Hj). rewrite Ec in C1.
      destruct (IH (q4get (quadrants bb) j) qr h' p) as (K & _); auto;
        [apply quad_i; assumption|apply spread_quad; assumption]. }
    split; [exact Nb|].
    destruct (quad_cover bb p Pbb Ip) as (j & Hj & Ij). specialize (C1 j Hj).
    destruct (con bb j h) as [h'|] eqn:Ec.
    - apply (IH (q4get (quadrants bb) j) qr h' p); auto; [apply quad_i; assumption|apply spread_quad; assumption].
    - apply C1; assumption.
  Qed.

  (** the hazard registered at the root *)
  Lemma gok_root : forall bb e a, a_obj a = s -> ent_position e = pos -> gok bb (Qh e (PPartial (Par a REAll)) true).
  Proof.
    intros bb e a Es Ep. split; [exact Ep|]. cbn [q_pres pa_shape]. split; [exact Es|]. split.
    - split; [reflexivity|]. cbn [pa_shape pa_edges]. rewrite Es. auto.
    - intros i x Hi _ _. unfold idx. cbn [pa_edges]. apply in_seq. lia.
  Qed.
End Tree.
