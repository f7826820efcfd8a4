(** The quadtree as a representation of a multiset of hazards, and the meaning of
    its queries hazard by hazard.  Holds for every [Num F]. *)
From Coq Require Import List Bool Arith ZArith Lia Permutation.
From Verif Require Import Base Num GeoModel HazardModel QTModel BaseProofs HazVecProofs.
Import ListNotations.

(** a polygon whose edges can all be built ([Edge::new] does not panic) *)
Definition wf_poly {F} {N : Num F} (s : poly F) : Prop :=
  forall i, i < n_points s -> exists e, get_edge s i = Ok e.

Section QTP.
  Context {F : Type} {N : Num F} {D : Type} {ED : EqD D} {BS : BSearch}.
  Hypothesis BSok : bsearch_ok BS.
  Local Notation rect := (rect F).
  Local Notation point := (point F).
  Local Notation poly := (poly F).
  Local Notation arc := (arc F).
  Local Notation entity := (entity D).
  Local Notation presence := (presence F).
  Local Notation partial := (partial F).
  Local Notation qth := (qth F D).
  Local Notation hvec := (hvec F D).
  Local Notation query := (query F).
  Local Notation node := (node F D).

  Definition all_alive : nat -> bool := fun _ => true.

  Definition wf_partial (alive : nat -> bool) (p : partial) : Prop :=
    alive (a_ptr (pa_shape p)) = true /\ wf_poly (a_obj (pa_shape p)) /\
    match pa_edges p with
    | REAll => True
    | RESome l => l <> [] /\ forall i, In i l -> i < n_points (a_obj (pa_shape p))
    end.
  Definition wf_qth (alive : nat -> bool) (h : qth) : Prop :=
    match q_pres h with
    | PNone => False
    | PEntire => True
    | PPartial p => wf_partial alive p
    end.

  (** the pure version of an edge access *)
  Definition edge_at (s : poly) (i : nat) : edge F :=
    match get_edge s i with Ok e => e | Panic => Ed (Pt f0 f0) (Pt f0 f0) end.
  Lemma get_edge_at : forall s i, wf_poly s -> i < n_points s -> get_edge s i = Ok (edge_at s i).
  Proof. intros s i W H. unfold edge_at. destruct (W i H) as (e & ->). reflexivity. Qed.

  Definition pp_pure (s : poly) (p : point) : bool :=
    match pp_collides s p with Ok b => b | Panic => false end.
  Lemma pp_collides_ok : forall s p, wf_poly s -> pp_collides s p = Ok (pp_pure s p).
  Proof.
    intros s p W. unfold pp_pure, pp_collides. destruct (rp_collides (p_bbox s) p); [|reflexivity].
    rewrite (rfold_ok _ (fun n i => if ray_counts (p_bbox s) p (edge_at s i) then S n else n)).
    - reflexivity.
    - intros a i Hi. unfold edge_indices in Hi. apply in_seq in Hi.
      rewrite (get_edge_at s i W) by lia. reflexivity.
  Qed.

  (** *** partial_collides *)
  Definition pcol (q : query) (p : partial) : bool :=
    let s := a_obj (pa_shape p) in
    match pa_edges p with
    | REAll => qy_rect q (p_bbox s) && existsb (fun i => qy_edge q (edge_at s i)) (edge_indices s)
    | RESome l =>
        (Nat.ltb (length l) BBOX_CHECK_THRESHOLD || qy_rect q (p_bbox s))
        && existsb (fun i => qy_edge q (edge_at s i)) l
    end.
  Lemma partial_collides_ok : forall alive q p, wf_partial alive p ->
    partial_collides alive q p = Ok (pcol q p).
  Proof.
    intros alive q p (A & W & I). unfold partial_collides, pcol, shape_arc. rewrite A. simpl.
    set (s := a_obj (pa_shape p)) in *.
    assert (Sc : forall l, (forall i, In i l -> i < n_points s) ->
       rany (fun i => e <- get_edge s i ;; Ok (qy_edge q e)) l =
       Ok (existsb (fun i => qy_edge q (edge_at s i)) l)).
    { intros l Hl. apply rany_ok. intros i Hi. rewrite (get_edge_at s i W) by auto. reflexivity. }
    destruct (pa_edges p) as [|l].
    - destruct (qy_rect q (p_bbox s)); simpl; [|reflexivity].
      apply Sc. intros i Hi. apply in_seq in Hi. lia.
    - destruct I as (Ne & I). destruct l as [|i l]; [congruence|].
      change (length (i :: l)) with (S (length l)) at 1. cbv iota beta.
      rewrite Sc by exact I.
      destruct (Nat.ltb _ _); simpl orb; [reflexivity|].
      destruct (qy_rect q (p_bbox s)); reflexivity.
  Qed.

  (** *** constrict *)
  Definition qp_inv (a : arc) (o : option presence) : Prop :=
    match o with
    | None => True
    | Some (PPartial p) => pa_shape p = a /\
        match pa_edges p with
        | REAll => False
        | RESome l => l <> [] /\ forall i, In i l -> i < n_points (a_obj a) end
    | Some _ => False
    end.

  Lemma add_edge_q_ok : forall a i e quad p, qp_inv a p -> i < n_points (a_obj a) ->
    exists p', add_edge_q a i e quad p = Ok p' /\ qp_inv a p'.
  Proof.
    intros a i e quad p I Hi. unfold add_edge_q. destruct (re_collides quad e); [|eauto].
    destruct p as [[|ph|]|]; simpl in I; try contradiction.
    - destruct I as (E & I). unfold add_edge_index. destruct (pa_edges ph) as [|l]; [contradiction|].
      simpl. eexists; split; [reflexivity|]. simpl. destruct I as (Ne & I).
      repeat split; auto.
      + intros X; apply app_eq_nil in X as [_ X]; discriminate.
      + intros j Hj. apply in_app_or in Hj as [Hj|[<-|[]]]; auto.
    - eexists; split; [reflexivity|]. simpl. repeat split; auto; [discriminate|].
      intros j [<-|[]]; auto.
  Qed.

  Definition qp_all (a : arc) (qp : q4 (option presence)) : Prop :=
    qp_inv a (qa qp) /\ qp_inv a (qb qp) /\ qp_inv a (qc qp) /\ qp_inv a (qd qp).

  Lemma add_edges_ok : forall a quads l qp, wf_poly (a_obj a) ->
    (forall i, In i l -> i < n_points (a_obj a)) -> qp_all a qp ->
    exists qp', rfold (add_edge_to_q_presences a quads) l qp = Ok qp' /\ qp_all a qp'.
  Proof.
    intros a quads l qp W. revert qp. induction l as [|i l IH]; intros qp Hl I; simpl; [eauto|].
    destruct I as (I0 & I1 & I2 & I3).
    assert (Hi : i < n_points (a_obj a)) by (apply Hl; left; reflexivity).
    unfold add_edge_to_q_presences at 1. rewrite (get_edge_at _ i W Hi). simpl.
    destruct (add_edge_q_ok a i (edge_at (a_obj a) i) (qa quads) _ I0 Hi) as (p0 & -> & J0).
    destruct (add_edge_q_ok a i (edge_at (a_obj a) i) (qb quads) _ I1 Hi) as (p1 & -> & J1).
    destruct (add_edge_q_ok a i (edge_at (a_obj a) i) (qc quads) _ I2 Hi) as (p2 & -> & J2).
    destruct (add_edge_q_ok a i (edge_at (a_obj a) i) (qd quads) _ I3 Hi) as (p3 & -> & J3).
    simpl. apply IH; [intros; apply Hl; right; auto|]. repeat split; assumption.
  Qed.

  (** presences allowed after resolving *)
  Definition qp_inv2 (a : arc) (o : option presence) : Prop :=
    match o with
    | None | Some PNone | Some PEntire => True
    | Some (PPartial p) => pa_shape p = a /\
        match pa_edges p with
        | REAll => False
        | RESome l => l <> [] /\ forall i, In i l -> i < n_points (a_obj a) end
    end.
  Lemma qp_inv_inv2 : forall a o, qp_inv a o -> qp_inv2 a o.
  Proof. intros a [[|p|]|]; simpl; auto. Qed.

  Lemma resolve_ok : forall pos s quads a qp i, wf_poly s -> i < 4 ->
    (forall j, j < 4 -> qp_inv2 a (q4get qp j)) ->
    exists qp', resolve_quadrant pos s quads qp i = Ok qp' /\
      (forall j, j < 4 -> qp_inv2 a (q4get qp' j)) /\
      (exists p, q4get qp' i = Some p) /\
      (forall j p, j < 4 -> q4get qp j = Some p -> q4get qp' j = Some p).
  Proof.
    intros pos s quads a qp i W Hi I. unfold resolve_quadrant.
    destruct (q4get qp i) as [p|] eqn:E.
    - exists qp. repeat split; eauto.
    - assert (G : forall x, qp_inv2 a (Some x) ->
         exists qp', Ok (q4set qp i (Some x)) = Ok qp' /\
          (forall j, j < 4 -> qp_inv2 a (q4get qp' j)) /\
          (exists p, q4get qp' i = Some p) /\
          (forall j p, j < 4 -> q4get qp j = Some p -> q4get qp' j = Some p)).
      { intros x Hx. eexists; split; [reflexivity|]. split; [|split].
        - intros j Hj. destruct (Nat.eq_dec i j) as [->|Nij].
          + rewrite q4get_set_eq by assumption. exact Hx.
          + rewrite q4get_set_neq by assumption. auto.
        - rewrite q4get_set_eq by assumption. eauto.
        - intros j p Hj Ej. destruct (Nat.eq_dec i j) as [->|Nij]; [congruence|].
          rewrite q4get_set_neq by assumption. exact Ej. }
      destruct (quadrant_neighbors i) as [n0 n1].
      destruct (is_entire (q4get qp n0)); [apply G; exact Logic.I|].
      destruct (is_entire (q4get qp n1)); [apply G; exact Logic.I|].
      destruct (is_pnone (q4get qp n0)); [apply G; exact Logic.I|].
      destruct (is_pnone (q4get qp n1)); [apply G; exact Logic.I|].
      rewrite (pp_collides_ok s _ W). simpl. apply G.
      destruct pos, (pp_pure s _); exact Logic.I.
  Qed.

  Definition con_ok (alive : nat -> bool) (h : qth) (o : option qth) : Prop :=
    match o with
    | None => True
    | Some h' => q_ent h' = q_ent h /\ q_act h' = q_act h /\ wf_qth alive h'
    end.

  Lemma constrict_ok : forall alive h quads, wf_qth alive h ->
    exists q, constrict alive h quads = Ok q /\ (forall i, i < 4 -> con_ok alive h (q4get q i)).
  Proof.
    intros alive h quads W. unfold constrict, wf_qth in *. destruct (q_pres h) as [|p|] eqn:E.
    - contradiction.
    - destruct W as (A & W & I). unfold shape_arc. rewrite A. cbn [rbind].
      set (a := pa_shape p) in *.
      assert (G : forall qp, (forall j, j < 4 -> exists x, q4get qp j = Some x /\
                    (x = PPartial p \/ qp_inv2 a (Some x))) ->
         exists q, (p0 <- expect (qa qp);; p1 <- expect (qb qp);; p2 <- expect (qc qp);;
            p3 <- expect (qd qp);;
            Ok (Q4 (qth_new (q_ent h) p0 (q_act h)) (qth_new (q_ent h) p1 (q_act h))
                   (qth_new (q_ent h) p2 (q_act h)) (qth_new (q_ent h) p3 (q_act h)))) = Ok q /\
           (forall i, i < 4 -> con_ok alive h (q4get q i))).
      { intros qp Hqp.
        destruct (Hqp 0) as (x0 & E0 & C0); [lia|]. destruct (Hqp 1) as (x1 & E1 & C1); [lia|].
        destruct (Hqp 2) as (x2 & E2 & C2); [lia|]. destruct (Hqp 3) as (x3 & E3 & C3); [lia|].
        simpl in E0, E1, E2, E3. rewrite E0, E1, E2, E3. simpl. eexists; split; [reflexivity|].
        assert (K : forall x, (x = PPartial p \/ qp_inv2 a (Some x)) ->
                   con_ok alive h (qth_new (q_ent h) x (q_act h))).
        { intros x [->|Hx].
          - simpl. repeat split; auto.
          - destruct x as [|px|]; simpl in *; auto. destruct Hx as (Ea & Hx).
            repeat split; auto.
            + rewrite Ea. exact A.
            + rewrite Ea. exact W.
            + rewrite Ea. destruct (pa_edges px); [contradiction|exact Hx]. }
        intros [|[|[|[|i]]]] Hi; simpl; try lia; apply K; assumption. }
      destruct (position (georel_eqb Enclosed) _) as [k|] eqn:P.
      + apply position_some in P as (l1 & x & l2 & El & Lk & _). 
        assert (Hk : k < 4).
        { apply (f_equal (@length _)) in El. rewrite app_length in El. simpl in El. lia. }
        cbn [rbind]. apply G. intros j Hj. destruct (Nat.eq_dec k j) as [->|Nk].
        * rewrite q4get_set_eq by assumption. eauto.
        * rewrite q4get_set_neq by assumption. exists PNone. split; [|right; exact Logic.I].
          destruct j as [|[|[|j]]]; reflexivity.
      + edestruct (add_edges_ok a quads (match pa_edges p with REAll => edge_indices (a_obj a) | RESome l => l end)) as (qp & -> & Q).
        * exact W.
        * intros i Hi. destruct (pa_edges p) as [|l].
          -- apply in_seq in Hi. lia.
          -- apply I. exact Hi.
        * repeat split; exact Logic.I.
        * cbn [rbind]. set (pos := ent_position (q_ent h)).
          assert (I0 : forall j, j < 4 -> qp_inv2 a (q4get qp j)).
          { destruct Q as (Q0 & Q1 & Q2 & Q3).
            intros [|[|[|[|j]]]] Hj; simpl; try lia; apply qp_inv_inv2; assumption. }
          unfold rfold.
          edestruct (resolve_ok pos (a_obj a) quads a qp 0) as (qp0 & -> & J0 & (p0 & K0) & L0);
            [exact W|lia|exact I0|]. cbn [rbind].
          edestruct (resolve_ok pos (a_obj a) quads a qp0 1) as (qp1 & -> & J1 & (p1 & K1) & L1);
            [exact W|lia|exact J0|]. cbn [rbind].
          edestruct (resolve_ok pos (a_obj a) quads a qp1 2) as (qp2 & -> & J2 & (p2 & K2) & L2);
            [exact W|lia|exact J1|]. cbn [rbind].
          edestruct (resolve_ok pos (a_obj a) quads a qp2 3) as (qp3 & -> & J3 & (p3 & K3) & L3);
            [exact W|lia|exact J2|]. cbn [rbind].
          apply G. intros j Hj.
          assert (Sj : exists x, q4get qp3 j = Some x).
          { destruct j as [|[|[|[|j]]]]; try lia; eauto 8. }
          destruct Sj as (x & Ex). exists x. split; [exact Ex|]. right.
          rewrite <- Ex. apply J3. assumption.
    - eexists; split; [reflexivity|]. intros [|[|[|[|i]]]] Hi; try lia; simpl;
        unfold wf_qth; rewrite E; auto.
  Qed.

  Lemma constrict_alive : forall alive h quads, wf_qth alive h ->
    constrict alive h quads = constrict all_alive h quads.
  Proof.
    intros alive h quads W. unfold constrict, wf_qth in *. destruct (q_pres h) as [|p|]; auto.
    destruct W as (A & _). unfold shape_arc. rewrite A. reflexivity.
  Qed.

  (** the hazard as seen from quadrant [i] of [bb] *)
  Definition con (bb : rect) (i : nat) (h : qth) : option qth :=
    match constrict all_alive h (quadrants bb) with Ok q => q4get q i | Panic => None end.

  Lemma wf_qth_mono : forall (al al' : nat -> bool) h,
    (forall p, al p = true -> al' p = true) -> wf_qth al h -> wf_qth al' h.
  Proof.
    intros al al' h M. unfold wf_qth. destruct (q_pres h); auto. intros (A & B); split; auto.
  Qed.

  Lemma con_spec : forall alive h bb i, wf_qth alive h -> i < 4 -> con_ok alive h (con bb i h).
  Proof.
    intros alive h bb i W Hi. unfold con. rewrite <- (constrict_alive alive h _ W).
    destruct (constrict_ok alive h (quadrants bb) W) as (q & -> & C). auto.
  Qed.

  Lemma constrict_con : forall alive h bb, wf_qth alive h ->
    constrict alive h (quadrants bb) = Ok (Q4 (con bb 0 h) (con bb 1 h) (con bb 2 h) (con bb 3 h)).
  Proof.
    intros alive h bb W. unfold con. rewrite (constrict_alive alive h _ W).
    rewrite <- (constrict_alive alive h _ W) at 1.
    destruct (constrict_ok alive h (quadrants bb) W) as (q & E & C). rewrite E.
    rewrite (constrict_alive alive h _ W) in E. rewrite E. f_equal.
    apply q4_ext. intros [|[|[|[|i]]]] Hi; try reflexivity; lia.
  Qed.

  Lemma con_entire : forall bb i h, q_pres h = PEntire -> con bb i h = Some h.
  Proof.
    intros bb i h E. unfold con, constrict. rewrite E. destruct i as [|[|[|i]]]; reflexivity.
  Qed.

  Definition with_act (b : bool) (h : qth) : qth := Qh (q_ent h) (q_pres h) b.
  Lemma con_with_act : forall bb i b h,
    con bb i (with_act b h) = option_map (with_act b) (con bb i h).
  Proof.
    intros bb i b h. unfold con, constrict. simpl. destruct (q_pres h) as [|p|] eqn:E.
    - destruct i as [|[|[|i]]]; reflexivity.
    - unfold shape_arc, all_alive. simpl.
      match goal with |- context [rbind ?x _] => destruct x as [qp|] end; [|reflexivity].
      simpl. destruct (qa qp) as [p0|]; [|reflexivity]. destruct (qb qp) as [p1|]; [|reflexivity].
      destruct (qc qp) as [p2|]; [|reflexivity]. destruct (qd qp) as [p3|]; [|reflexivity].
      simpl. destruct i as [|[|[|i]]]; simpl;
        match goal with |- context [qth_new _ ?x _] => destruct x end; reflexivity.
    - destruct i as [|[|[|i]]]; reflexivity.
  Qed.

  (** *** the representation relation *)
  Fixpoint repr (lvl : nat) (bb : rect) (hs : list qth) (n : node) {struct lvl} : Prop :=
    n_level n = lvl /\ n_bbox n = bb /\ hv_rep (n_haz n) hs /\
    match lvl with
    | 0 => n_children n = None
    | S l =>
        if existsb is_partial hs then
          exists c, n_children n = Some c /\
            forall i, i < 4 ->
              repr l (q4get (quadrants bb) i) (omap (con bb i) hs) (q4get c i)
        else n_children n = None
    end.

  Lemma repr_perm : forall lvl bb hs hs' n,
    repr lvl bb hs n -> Permutation hs hs' -> repr lvl bb hs' n.
  Proof.
    induction lvl as [|l IH]; intros bb hs hs' n H P; simpl in *.
    - destruct H as (A & B & C & E). repeat split; auto; eapply hv_rep_perm; eauto.
    - destruct H as (A & B & C & E). repeat split; auto; try (eapply hv_rep_perm; eauto).
      rewrite <- (existsb_perm _ _ _ P). destruct (existsb is_partial hs); auto.
      destruct E as (c & Ec & Hc). exists c. split; auto. intros i Hi.
      eapply IH; [apply Hc; exact Hi|]. apply omap_perm, P.
  Qed.

  Lemma repr_hv : forall lvl bb hs n, repr lvl bb hs n -> hv_rep (n_haz n) hs.
  Proof. intros [|l] bb hs n H; destruct H as (? & ? & ? & ?); assumption. Qed.
  Lemma repr_level : forall lvl bb hs n, repr lvl bb hs n -> n_level n = lvl.
  Proof. intros [|l] bb hs n H; destruct H as (? & ? & ? & ?); assumption. Qed.
  Lemma repr_bbox : forall lvl bb hs n, repr lvl bb hs n -> n_bbox n = bb.
  Proof. intros [|l] bb hs n H; destruct H as (? & ? & ? & ?); assumption. Qed.

  Lemma repr_new : forall lvl bb, repr lvl bb [] (node_new lvl bb).
  Proof. intros [|l] bb; simpl; repeat split; constructor. Qed.

  Lemma omap_con_ents : forall alive bb i hs, i < 4 -> Forall (wf_qth alive) hs ->
    NoDup (map q_ent hs) -> NoDup (map q_ent (omap (con bb i) hs)).
  Proof.
    intros alive bb i hs Hi W ND. induction hs as [|h hs IH]; simpl; [constructor|].
    inversion W as [|? ? Wh Ws]; subst. inversion ND as [|? ? Nh Ns]; subst.
    pose proof (con_spec alive h bb i Wh Hi) as C. destruct (con bb i h) as [h'|]; [|auto].
    simpl. constructor; [|auto]. destruct C as (E & _ & _). rewrite E. intros H.
    apply Nh. apply in_map_iff in H as (x & Ex & Hx). apply in_omap in Hx as (y & Hy & Cy).
    rewrite Forall_forall in Ws. pose proof (con_spec alive y bb i (Ws y Hy) Hi) as C'.
    rewrite Cy in C'. destruct C' as (E' & _). rewrite <- Ex, E'. apply in_map. assumption.
  Qed.

  Lemma omap_con_wf : forall alive bb i hs, i < 4 -> Forall (wf_qth alive) hs ->
    Forall (wf_qth alive) (omap (con bb i) hs).
  Proof.
    intros alive bb i hs Hi W. apply Forall_forall. intros x Hx.
    apply in_omap in Hx as (h & Hh & E). rewrite Forall_forall in W.
    pose proof (con_spec alive h bb i (W h Hh) Hi) as C. rewrite E in C. destruct C as (_ & _ & C); exact C.
  Qed.

  (** *** registration *)
  Definition children_repr (l : nat) (bb : rect) (hs : list qth) (c : q4 node) : Prop :=
    forall i, i < 4 -> repr l (q4get (quadrants bb) i) (omap (con bb i) hs) (q4get c i).

  Lemma children_bboxes : forall l bb hs c, children_repr l bb hs c ->
    q4map n_bbox c = quadrants bb.
  Proof.
    intros l bb hs c H. apply q4_ext. intros i Hi. rewrite q4get_map.
    eapply repr_bbox, H, Hi.
  Qed.

  Lemma generate_children_repr : forall l bb,
    exists c, generate_children (S l) bb = Some c /\ children_repr l bb [] c.
  Proof.
    intros l bb. eexists; split; [reflexivity|]. intros i Hi. rewrite q4get_map. apply repr_new.
  Qed.

  Definition reg_spec (alive : nat -> bool) (l : nat) (rec : node -> qth -> res node) : Prop :=
    forall bb hs n h, repr l bb hs n -> Forall (wf_qth alive) hs -> wf_qth alive h ->
      exists n', rec n h = Ok n' /\ repr l bb (h :: hs) n'.

  Lemma register_to_children_ok : forall alive l rec bb hs c h,
    reg_spec alive l rec -> children_repr l bb hs c ->
    Forall (wf_qth alive) hs -> wf_qth alive h ->
    exists c', register_to_children alive rec (Some c) h = Ok (Some c') /\
               children_repr l bb (h :: hs) c'.
  Proof.
    intros alive l rec bb hs c h R C W Wh. unfold register_to_children.
    rewrite (children_bboxes _ _ _ _ C), (constrict_con alive h bb Wh). simpl.
    assert (G : forall i, i < 4 -> exists n', reg_opt rec (q4get c i) (con bb i h) = Ok n' /\
               repr l (q4get (quadrants bb) i) (omap (con bb i) (h :: hs)) n').
    { intros i Hi. pose proof (con_spec alive h bb i Wh Hi) as K. simpl.
      destruct (con bb i h) as [h'|]; simpl.
      - destruct K as (_ & _ & K). apply R; [apply C; exact Hi|apply omap_con_wf; assumption|exact K].
      - eexists; split; [reflexivity|]. apply C; exact Hi. }
    destruct (G 0) as (c0 & E0 & R0); [lia|]. destruct (G 1) as (c1 & E1 & R1); [lia|].
    destruct (G 2) as (c2 & E2 & R2); [lia|]. destruct (G 3) as (c3 & E3 & R3); [lia|].
    simpl in E0, E1, E2, E3. rewrite E0. simpl. rewrite E1. simpl. rewrite E2. simpl.
    rewrite E3. simpl. eexists; split; [reflexivity|].
    intros [|[|[|[|i]]]] Hi; try lia; assumption.
  Qed.

  Lemma register_all_ok : forall alive l rec bb l0, reg_spec alive l rec ->
    Forall (wf_qth alive) l0 -> forall hs c, children_repr l bb hs c -> Forall (wf_qth alive) hs ->
    exists c', rfold (register_to_children alive rec) l0 (Some c) = Ok (Some c') /\
               children_repr l bb (rev l0 ++ hs) c'.
  Proof.
    intros alive l rec bb l0 R W. induction W as [|h l0 Wh W IH]; intros hs c C Whs; cbn [rfold rev app].
    - eauto.
    - destruct (register_to_children_ok alive l rec bb hs c h R C Whs Wh) as (c' & E & C').
      rewrite E. cbn [rbind]. destruct (IH (h :: hs) c' C') as (c'' & E' & C''); [constructor; auto|].
      exists c''. split; [exact E'|]. rewrite <- app_assoc. exact C''.
  Qed.

  Lemma children_repr_perm : forall l bb hs hs' c, children_repr l bb hs c ->
    Permutation hs hs' -> children_repr l bb hs' c.
  Proof.
    intros l bb hs hs' c C P i Hi. eapply repr_perm; [apply C; exact Hi|]. apply omap_perm, P.
  Qed.

  Lemma hv_rep_wf : forall alive (v : hvec) hs, hv_rep v hs -> Forall (wf_qth alive) hs ->
    Forall (wf_qth alive) (hv_list v).
  Proof.
    intros alive v hs (_ & P & _) W. rewrite Forall_forall in *. intros x Hx. apply W.
    eapply Permutation_in; eauto.
  Qed.

  Lemma node_register_ok : forall alive lvl, reg_spec alive lvl (node_register alive lvl).
  Proof.
    intros alive. induction lvl as [|l IH]; intros bb hs n h R W Wh.
    - destruct n as [lv b hv ch]. simpl in R. destruct R as (-> & -> & V & ->).
      cbn. eexists; split; [reflexivity|].
      split; [reflexivity|]. split; [reflexivity|]. split; [apply hv_add_rep; auto|reflexivity].
    - destruct n as [lv b hv ch]. simpl in R. destruct R as (-> & -> & V & C).
      assert (Vadd : hv_rep (hv_add hv h) (h :: hs)) by (apply hv_add_rep; auto).
      cbn [node_register]. destruct (existsb is_partial hs) eqn:Ep.
      + destruct C as (c & -> & C). cbn [is_some negb andb rbind].
        destruct (register_to_children_ok alive l _ bb hs c h IH C W Wh) as (c' & E & C').
        rewrite E. cbn [rbind]. eexists; split; [reflexivity|]. cbn [repr n_level n_bbox n_haz n_children].
        repeat split; auto; try apply Vadd.
        cbn [existsb]. rewrite Ep, orb_true_r. exists c'. split; [reflexivity|exact C'].
      + subst ch. cbn [is_some negb andb]. change (0 <? S l) with true. cbn [andb].
        destruct (is_partial h) eqn:Eh.
        * destruct (generate_children_repr l bb) as (c0 & Ec0 & C0). rewrite Ec0.
          destruct (register_all_ok alive l _ bb (hv_list hv) IH (hv_rep_wf _ _ _ V W) [] c0 C0)
            as (c1 & E1 & C1); [constructor|]. rewrite E1. cbn [rbind].
          assert (C2 : children_repr l bb hs c1).
          { eapply children_repr_perm; [exact C1|]. rewrite app_nil_r.
            rewrite <- Permutation_rev. apply V. }
          destruct (register_to_children_ok alive l _ bb hs c1 h IH C2 W Wh) as (c' & E & C').
          rewrite E. cbn [rbind]. eexists; split; [reflexivity|].
          cbn [repr n_level n_bbox n_haz n_children]. repeat split; auto; try apply Vadd.
          cbn [existsb]. rewrite Eh. exists c'. split; [reflexivity|exact C'].
        * cbn [rbind register_to_children]. eexists; split; [reflexivity|].
          cbn [repr n_level n_bbox n_haz n_children]. repeat split; auto; try apply Vadd.
          cbn [existsb]. rewrite Eh, Ep. reflexivity.
  Qed.

  (** *** deregistration *)
  Lemma filter_not_partial : forall (f : qth -> bool) hs,
    existsb is_partial hs = false -> existsb is_partial (filter f hs) = false.
  Proof.
    intros f hs H. rewrite existsb_false in *. intros x Hx. apply filter_In in Hx as [Hx _]. auto.
  Qed.

  Lemma only_entire_spec : forall alive (v : hvec) hs, hv_rep v hs -> Forall (wf_qth alive) hs ->
    hv_is_empty v || has_only_entire v = negb (existsb is_partial hs).
  Proof.
    intros alive v hs (A & P & C) W. rewrite <- (existsb_perm _ _ _ P).
    assert (W' : Forall (wf_qth alive) (hv_list v)).
    { rewrite Forall_forall in *. intros x Hx. apply W. eapply Permutation_in; eauto. }
    unfold hv_is_empty, has_only_entire. clear -W'.
    assert (G : forall l, Forall (wf_qth alive) l ->
       forallb (fun hz => match q_pres hz with PEntire => true | _ => false end) l
       = negb (existsb is_partial l)).
    { induction 1 as [|x l Wx Wl IH]; simpl; [reflexivity|]. rewrite IH.
      unfold is_partial at 2. unfold wf_qth in Wx.
      destruct (q_pres x); [contradiction| |]; reflexivity. }
    rewrite G by assumption. destruct (hv_list v); simpl; reflexivity || auto.
  Qed.

  Lemma omap_con_filter : forall alive bb i e hs, i < 4 -> Forall (wf_qth alive) hs ->
    omap (con bb i) (filter (not_ent e) hs) = filter (not_ent e) (omap (con bb i) hs).
  Proof.
    intros alive bb i e hs Hi W. induction W as [|h hs Wh W IH]; simpl; [reflexivity|].
    pose proof (con_spec alive h bb i Wh Hi) as C.
    destruct (not_ent e h) eqn:E; simpl; destruct (con bb i h) as [h'|]; simpl; rewrite ?IH; auto;
      destruct C as (Ee & _); unfold not_ent in *; rewrite Ee, E; reflexivity.
  Qed.

  Lemma Forall_filter : forall {A} (P : A -> Prop) f l, Forall P l -> Forall P (filter f l).
  Proof.
    intros A P f l H. rewrite Forall_forall in *. intros x Hx. apply filter_In in Hx as [Hx _]. auto.
  Qed.

  Lemma node_deregister_ok : forall alive lvl bb hs n e,
    repr lvl bb hs n -> Forall (wf_qth alive) hs -> NoDup (map q_ent hs) ->
    repr lvl bb (filter (not_ent e) hs) (node_deregister n e).
  Proof.
    intros alive. induction lvl as [|l IH]; intros bb hs n e R W ND;
      destruct n as [lv b hv ch]; cbn [repr n_level n_bbox n_haz n_children] in R;
      destruct R as (-> & -> & V & C); cbn [node_deregister];
      destruct (hv_remove_rep hv hs e V ND) as (V' & Hin);
      destruct (hv_remove hv e) as [rm hv'] eqn:Er; cbn [fst snd] in V', Hin.
    - subst ch. destruct rm; cbn [repr n_level n_bbox n_haz n_children]; auto.
    - destruct (existsb is_partial hs) eqn:Ep.
      + destruct C as ([c0 c1 c2 c3] & -> & C).
        destruct rm as [h|].
        * rewrite (only_entire_spec alive _ _ V' (Forall_filter _ _ _ W)).
          destruct (existsb is_partial (filter (not_ent e) hs)) eqn:Ep';
            cbn [negb]; cbn [repr n_level n_bbox n_haz n_children]; rewrite Ep';
            repeat split; auto; try apply V'.
          eexists; split; [reflexivity|]. intros i Hi.
          rewrite (omap_con_filter alive) by assumption.
          pose proof (C i Hi) as Ci.
          pose proof (IH _ _ _ e Ci (omap_con_wf alive bb i hs Hi W)
                        (omap_con_ents alive bb i hs Hi W ND)) as K.
          destruct i as [|[|[|[|i]]]]; try lia; exact K.
        * assert (Eid : filter (not_ent e) hs = hs).
          { apply filter_id. intros x Hx. apply negb_true_iff, ent_eqb_false. intros E.
            cut (false = true); [discriminate|]. apply Hin. rewrite <- E. apply in_map; assumption. }
          rewrite Eid in *. cbn [repr n_level n_bbox n_haz n_children]. rewrite Ep.
          repeat split; auto; try apply V'. eauto.
      + subst ch. pose proof (filter_not_partial (not_ent e) hs Ep) as Ep'.
        destruct rm; cbn [repr n_level n_bbox n_haz n_children]; rewrite Ep'; auto.
  Qed.

  (** *** (de)activation *)
  Lemma set_act_ent : forall e b (h : qth), q_ent (set_act e b h) = q_ent h.
  Proof. intros. unfold set_act. destruct (ent_eqb (q_ent h) e); reflexivity. Qed.
  Lemma map_set_act_ents : forall e b hs, map q_ent (map (set_act e b) hs) = map (@q_ent F D) hs.
  Proof. intros. rewrite map_map. apply map_ext. intros; apply set_act_ent. Qed.
  Lemma set_act_partial : forall e b h, is_partial (set_act e b h) = @is_partial F D h.
  Proof. intros. unfold set_act. destruct (ent_eqb (q_ent h) e); reflexivity. Qed.
  Lemma set_act_wf : forall alive e b h, wf_qth alive h -> wf_qth alive (set_act e b h).
  Proof. intros. unfold set_act. destruct (ent_eqb (q_ent h) e); assumption. Qed.

  Lemma existsb_map : forall {A B} (f : A -> B) (g : B -> bool) l,
    existsb g (map f l) = existsb (fun x => g (f x)) l.
  Proof. induction l as [|x l IH]; simpl; congruence. Qed.

  Lemma omap_con_set_act : forall alive bb i e b hs, i < 4 -> Forall (wf_qth alive) hs ->
    omap (con bb i) (map (set_act e b) hs) = map (set_act e b) (omap (con bb i) hs).
  Proof.
    intros alive bb i e b hs Hi W. induction W as [|h hs Wh W IH]; simpl; [reflexivity|].
    pose proof (con_spec alive h bb i Wh Hi) as C. unfold set_act at 1.
    destruct (ent_eqb (q_ent h) e) eqn:E.
    - change (Qh (q_ent h) (q_pres h) b) with (with_act b h). rewrite con_with_act.
      destruct (con bb i h) as [h'|]; simpl; rewrite IH; [|reflexivity].
      destruct C as (Ee & _). f_equal. unfold set_act. rewrite Ee, E. unfold with_act. rewrite Ee. reflexivity.
    - destruct (con bb i h) as [h'|]; simpl; rewrite IH; [|reflexivity].
      destruct C as (Ee & _). f_equal. unfold set_act. rewrite Ee, E. reflexivity.
  Qed.

  Definition node_toggle (b : bool) (n : node) (e : entity) : node :=
    if b then node_activate n e else node_deactivate n e.

  Lemma node_toggle_unfold : forall b lvl bb hv ch e,
    node_toggle b (Node lvl bb hv ch) e =
    let r := if b then hv_activate hv e else hv_deactivate hv e in
    match fst r, ch with
    | true, Some c => Node lvl bb (snd r) (Some (q4map (fun n => node_toggle b n e) c))
    | _, _ => Node lvl bb (snd r) ch
    end.
  Proof.
    intros [|] lvl bb hv ch e; simpl.
    - destruct (hv_activate hv e) as [[|] v]; destruct ch as [[c0 c1 c2 c3]|]; reflexivity.
    - destruct (hv_deactivate hv e) as [[|] v]; destruct ch as [[c0 c1 c2 c3]|]; reflexivity.
  Qed.

  Lemma node_toggle_ok : forall alive b lvl bb hs n e,
    repr lvl bb hs n -> Forall (wf_qth alive) hs -> NoDup (map q_ent hs) ->
    (forall h, In h hs -> q_ent h = e -> q_act h = negb b) ->
    repr lvl bb (map (set_act e b) hs) (node_toggle b n e).
  Proof.
    intros alive b. induction lvl as [|l IH]; intros bb hs n e R W ND Hact;
      destruct n as [lv b' hv ch]; cbn [repr n_level n_bbox n_haz n_children] in R;
      destruct R as (-> & -> & V & C); rewrite node_toggle_unfold;
      destruct (hv_toggle_rep BSok b hv hs e V ND Hact) as (V' & Hin);
      set (r := if b then hv_activate hv e else hv_deactivate hv e) in *; cbv zeta.
    - subst ch. destruct (fst r); cbn [repr n_level n_bbox n_haz n_children]; auto.
    - assert (Epm : existsb is_partial (map (set_act e b) hs) = existsb is_partial hs).
      { rewrite existsb_map. apply existsb_ext_in. intros; apply set_act_partial. }
      destruct (existsb is_partial hs) eqn:Ep.
      + destruct C as (c & -> & C). destruct (fst r) eqn:Er.
        * cbn [repr n_level n_bbox n_haz n_children]; rewrite Epm; repeat split; auto; try apply V'.
          eexists; split; [reflexivity|]. intros i Hi. rewrite q4get_map.
          rewrite (omap_con_set_act alive) by assumption.
          apply IH.
          -- apply C; exact Hi.
          -- apply omap_con_wf; assumption.
          -- eapply omap_con_ents; eassumption.
          -- intros h Hh Eh. apply in_omap in Hh as (h0 & Hh0 & Ec).
             rewrite Forall_forall in W.
             pose proof (con_spec alive h0 bb i (W h0 Hh0) Hi) as K. rewrite Ec in K.
             destruct K as (K1 & K2 & _). rewrite K2. apply Hact; congruence.
        * assert (Eid : map (set_act e b) hs = hs).
          { apply map_set_act_other. intros x Hx E.
            cut (false = true); [discriminate|]. apply Hin. rewrite <- E. apply in_map; assumption. }
          rewrite Eid in *. cbn [repr n_level n_bbox n_haz n_children]. rewrite Ep.
          repeat split; auto; try apply V'. eauto.
      + subst ch. destruct (fst r); cbn [repr n_level n_bbox n_haz n_children]; rewrite Epm; auto.
  Qed.

  (** *** queries, hazard by hazard *)
  (** does the query hit this one hazard? *)
  Fixpoint hits (lvl : nat) (bb : rect) (q : query) (h : qth) : bool :=
    qy_rect q bb &&
    match q_pres h with
    | PNone => false
    | PEntire => true
    | PPartial p =>
        match lvl with
        | 0 => pcol q p
        | S l => existsb (fun i => match con bb i h with
                                   | Some h' => hits l (q4get (quadrants bb) i) q h'
                                   | None => false end) [0; 1; 2; 3]
        end
    end.

  Definition tri_max (a b : tribool) : tribool :=
    match a, b with
    | TTrue, _ | _, TTrue => TTrue
    | TIndet, _ | _, TIndet => TIndet
    | TFalse, TFalse => TFalse
    end.
  Definition tri_all (l : list tribool) : tribool := fold_right tri_max TFalse l.

  Fixpoint tri (lvl : nat) (bb : rect) (qr : rect -> bool) (h : qth) : tribool :=
    if qr bb then
      match q_pres h with
      | PNone => TFalse
      | PEntire => TTrue
      | PPartial p =>
          match lvl with
          | 0 => TIndet
          | S l => tri_all (map (fun i => match con bb i h with
                                   | Some h' => tri l (q4get (quadrants bb) i) qr h'
                                   | None => TFalse end) [0; 1; 2; 3])
          end
      end
    else TFalse.

  Lemma relevant_con : forall alive irr bb i h h', wf_qth alive h -> i < 4 ->
    con bb i h = Some h' -> relevant irr h' = relevant irr h.
  Proof.
    intros alive irr bb i h h' W Hi E. pose proof (con_spec alive h bb i W Hi) as C.
    rewrite E in C. destruct C as (A & B & _). unfold relevant. rewrite A, B. reflexivity.
  Qed.

  Lemma first_some_spec : forall (l : list (res (option entity))) (g : nat -> bool) (P : entity -> Prop) k,
    length l = k ->
    (forall i, i < k -> exists o, nth_error l i = Some (Ok o) /\ is_some o = g i /\
                         (forall e, o = Some e -> P e)) ->
    exists o, first_some l = Ok o /\ is_some o = existsb g (seq 0 k) /\ (forall e, o = Some e -> P e).
  Proof.
    intros l. induction l as [|x l IH]; intros g P k Hk H; subst k; simpl.
    - exists None. repeat split; auto. discriminate.
    - destruct (H 0) as (o & E & G & Po); [simpl; lia|]. simpl in E. injection E as ->. simpl.
      destruct o as [e|].
      + exists (Some e). simpl in G. rewrite <- G. repeat split; auto.
      + simpl in G. rewrite <- G. simpl.
        destruct (IH (fun i => g (S i)) P (length l) eq_refl) as (o' & E' & G' & P').
        * intros i Hi. apply (H (S i)). simpl; lia.
        * exists o'. repeat split; auto. rewrite G'. rewrite <- seq_shift.
          rewrite existsb_map. reflexivity.
  Qed.

  Lemma existsb_swap : forall {A B} (f : A -> B -> bool) l l',
    existsb (fun x => existsb (f x) l') l = existsb (fun y => existsb (fun x => f x y) l) l'.
  Proof.
    intros. apply eq_true_iff_eq. rewrite !existsb_exists. split.
    - intros (x & Hx & H). apply existsb_exists in H as (y & Hy & H). exists y.
      split; auto. apply existsb_exists. eauto.
    - intros (y & Hy & H). apply existsb_exists in H as (x & Hx & H). exists x.
      split; auto. apply existsb_exists. eauto.
  Qed.

  Lemma hits_rect : forall lvl bb q h, qy_rect q bb = false -> hits lvl bb q h = false.
  Proof. intros [|l] bb q h E; simpl; rewrite E; reflexivity. Qed.

  Theorem node_collides_spec : forall alive q irr lvl bb hs n,
    repr lvl bb hs n -> Forall (wf_qth alive) hs ->
    exists o, node_collides alive n q irr = Ok o /\
      is_some o = existsb (fun h => relevant irr h && hits lvl bb q h) hs /\
      (forall e, o = Some e ->
         exists h, In h hs /\ q_ent h = e /\ relevant irr h = true /\ hits lvl bb q h = true).
  Proof.
    intros alive q irr. induction lvl as [|l IH]; intros bb hs n R W;
      destruct n as [lv b hv ch]; cbn [repr n_level n_bbox n_haz n_children] in R;
      destruct R as (-> & -> & V & C); cbn [node_collides];
      destruct (strongest_spec hv hs irr V) as (s & -> & Hs); cbn [rbind];
      destruct s as [sh|];
      try (exists None; split; [reflexivity|]; split; [|discriminate];
           symmetry; apply existsb_false; intros x Hx; rewrite (Hs x Hx); reflexivity);
      destruct Hs as (Hin & Hrel & Hmax);
      (destruct (qy_rect q bb) eqn:Eq;
       [|exists None; split; [reflexivity|]; split; [|discriminate];
         symmetry; apply existsb_false; intros x Hx; rewrite hits_rect by exact Eq; apply andb_false_r]);
      (pose proof W as W0; rewrite Forall_forall in W0; pose proof (W0 sh Hin) as Wsh; unfold wf_qth in Wsh;
       destruct (q_pres sh) as [|p|] eqn:Es; [contradiction| |
         exists (Some (q_ent sh)); split; [reflexivity|];
         assert (Hh : forall m, hits m bb q sh = true) by (intros [|m]; simpl; rewrite Eq, Es; reflexivity);
         split; [symmetry; apply existsb_exists; exists sh; split; [exact Hin|]; rewrite Hrel, Hh; reflexivity|];
         intros e X; injection X as <-; exists sh; auto]).
    - (* leaf *)
      subst ch. destruct (active_hazards_rep hv hs V) as (act & -> & Pa & _). cbn [rbind].
      set (L := filter (fun hz => negb (memb ent_eqb (q_ent hz) irr)) act).
      assert (HL : forall h, In h L <-> In h hs /\ relevant irr h = true).
      { intros h. unfold L. rewrite filter_In. split.
        - intros (A & B). assert (A' : In h (filter (fun h => q_act h) hs)) by (eapply Permutation_in; eauto).
          apply filter_In in A' as (A1 & A2). split; auto. unfold relevant. rewrite A2, B. reflexivity.
        - intros (A & B). unfold relevant in B. apply andb_true_iff in B as (B1 & B2). split; auto.
          eapply Permutation_in; [symmetry; exact Pa|]. apply filter_In; auto. }
      rewrite (rfind_ok _ (fun hz => hits 0 bb q hz)).
      2:{ intros h Hh. apply HL in Hh as (A & B). pose proof (W0 h A) as Wh. unfold wf_qth in Wh.
          specialize (Hmax h A B). destruct (q_pres h) as [|ph|] eqn:Eh; [contradiction| |simpl in Hmax; lia].
          simpl. rewrite Eq, Eh. simpl. apply partial_collides_ok. exact Wh. }
      cbn [rbind]. eexists; split; [reflexivity|]. split.
      + destruct (find _ L) as [h|] eqn:Ef; simpl option_map; cbn [is_some].
        * apply find_some in Ef as (A & B). apply HL in A as (A & A').
          symmetry. apply existsb_exists. exists h. split; auto. rewrite A', B. reflexivity.
        * symmetry. apply existsb_false. intros x Hx.
          destruct (relevant irr x) eqn:Rx; [|reflexivity].
          apply (find_none _ _ Ef x). apply HL; auto.
      + intros e E. destruct (find _ L) as [h|] eqn:Ef; [|discriminate].
        simpl in E. injection E as <-. apply find_some in Ef as (A & B).
        apply HL in A as (A & A'). eauto.
    - (* inner node *)
      assert (Ep : existsb is_partial hs = true).
      { apply existsb_exists. exists sh. split; auto. unfold is_partial. rewrite Es. reflexivity. }
      rewrite Ep in C. destruct C as ([c0 c1 c2 c3] & -> & C).
      set (g := fun i => existsb (fun h => relevant irr h && hits l (q4get (quadrants bb) i) q h)
                                 (omap (con bb i) hs)).
      assert (Echild : forall h i, In h hs -> i < 4 ->
         (relevant irr h && match con bb i h with
            | Some h' => hits l (q4get (quadrants bb) i) q h' | None => false end)
         = match con bb i h with
            | Some h' => relevant irr h' && hits l (q4get (quadrants bb) i) q h' | None => false end).
      { intros h i Hh Hi. destruct (con bb i h) as [h'|] eqn:Ec; [|apply andb_false_r].
        rewrite (relevant_con alive irr bb i h h'); auto. }
      assert (Hexp : forall h, In h hs -> relevant irr h = true ->
         hits (S l) bb q h = existsb (fun i => match con bb i h with
            | Some h' => hits l (q4get (quadrants bb) i) q h' | None => false end) [0;1;2;3]).
      { intros h Hh Rh. pose proof (W0 h Hh) as Wh. unfold wf_qth in Wh. specialize (Hmax h Hh Rh).
        cbn [hits]. rewrite Eq. cbn [andb].
        destruct (q_pres h) as [|ph|]; [contradiction|reflexivity|simpl in Hmax; lia]. }
      destruct (first_some_spec
        [node_collides alive c0 q irr; node_collides alive c1 q irr;
         node_collides alive c2 q irr; node_collides alive c3 q irr] g
        (fun e => exists h, In h hs /\ q_ent h = e /\ relevant irr h = true /\ hits (S l) bb q h = true) 4 eq_refl)
        as (o & Eo & Go & Po).
      { intros i Hi. destruct (IH _ _ _ (C i Hi) (omap_con_wf alive bb i hs Hi W)) as (o & Eo & Go & Po).
        exists o. split; [|split].
        - destruct i as [|[|[|[|i]]]]; try lia; simpl in Eo |- *; rewrite Eo; reflexivity.
        - exact Go.
        - intros e E. destruct (Po e E) as (h' & Hh' & Ee & Rh' & Hit).
          apply in_omap in Hh' as (h & Hh & Ec).
          pose proof (con_spec alive h bb i (W0 h Hh) Hi) as K. rewrite Ec in K.
          destruct K as (K1 & _). exists h.
          assert (Rh : relevant irr h = true).
          { rewrite <- (relevant_con alive irr bb i h h'); auto. }
          split; [exact Hh|]. split; [congruence|]. split; [exact Rh|].
          rewrite Hexp by assumption. apply existsb_exists. exists i. split.
          + destruct i as [|[|[|[|i]]]]; simpl; auto; lia.
          + rewrite Ec. exact Hit. }
      exists o. split; [exact Eo|]. split; [|exact Po].
      rewrite Go. transitivity (existsb (fun h => existsb (fun i =>
          match con bb i h with
            | Some h' => relevant irr h' && hits l (q4get (quadrants bb) i) q h' | None => false end) [0;1;2;3]) hs).
      + rewrite (existsb_swap (fun h i => match con bb i h with
            | Some h' => relevant irr h' && hits l (q4get (quadrants bb) i) q h' | None => false end)).
        apply existsb_ext_in. intros i _. unfold g. rewrite existsb_omap. reflexivity.
      + apply existsb_ext_in. intros h Hh. destruct (relevant irr h) eqn:Rh.
        * rewrite (Hexp h Hh Rh). cbn [andb]. apply existsb_ext_in. intros i Hi.
          rewrite <- Echild; [|exact Hh|simpl in Hi; lia]. rewrite Rh. reflexivity.
        * simpl andb. apply existsb_false. intros i Hi.
          rewrite <- Echild; [|exact Hh|simpl in Hi; lia]. rewrite Rh. reflexivity.
  Qed.

  (** *** tri-state queries *)
  Lemma tri_all_true : forall l, tri_all l = TTrue <-> In TTrue l.
  Proof.
    induction l as [|x l IH]; simpl; [split; [discriminate|intros []]|].
    rewrite <- IH. destruct x, (tri_all l); simpl; split; auto; try discriminate;
      intros [H|H]; discriminate || auto.
  Qed.
  Lemma tri_all_false : forall l, tri_all l = TFalse <-> (forall t, In t l -> t = TFalse).
  Proof.
    induction l as [|x l IH]; simpl; [split; [intros _ t []|reflexivity]|].
    destruct x; simpl.
    - split; [discriminate|]. intros H. discriminate (H TTrue (or_introl eq_refl)).
    - replace (match tri_all l with TTrue => TTrue | TFalse => TFalse | TIndet => TIndet end)
        with (tri_all l) by (destruct (tri_all l); reflexivity).
      rewrite IH. split; [intros H t [<-|Ht]; auto|intros H t Ht; auto].
    - split; [destruct (tri_all l); discriminate|].
      intros H. discriminate (H TIndet (or_introl eq_refl)).
  Qed.
  Lemma tri_eq_iff : forall a b : tribool,
    (a = TTrue <-> b = TTrue) -> (a = TFalse <-> b = TFalse) -> a = b.
  Proof.
    intros [| |] [| |] [H1 H1'] [H2 H2']; auto;
      (discriminate (H1 eq_refl) || discriminate (H1' eq_refl) ||
       discriminate (H2 eq_refl) || discriminate (H2' eq_refl)).
  Qed.

  Lemma tri_loop_spec : forall (l : list tribool) acc, acc <> TTrue ->
    tri_loop (map Ok l) acc = Ok (tri_max acc (tri_all l)).
  Proof.
    induction l as [|x l IH]; intros acc Ha; simpl.
    - destruct acc; reflexivity || congruence.
    - destruct x; simpl.
      + destruct acc; reflexivity.
      + rewrite IH by assumption. destruct acc, (tri_all l); reflexivity.
      + rewrite IH by discriminate. destruct acc, (tri_all l); try reflexivity; congruence.
  Qed.

  Lemma tri_rect : forall lvl bb qr h, qr bb = false -> tri lvl bb qr h = TFalse.
  Proof. intros [|l] bb q h E; simpl; rewrite E; reflexivity. Qed.

  Lemma node_definitely_spec : forall alive qr irr lvl bb hs n,
    repr lvl bb hs n -> Forall (wf_qth alive) hs ->
    node_definitely n qr irr = Ok (tri_all (map (tri lvl bb qr) (filter (relevant irr) hs))).
  Proof.
    intros alive qr irr. induction lvl as [|l IH]; intros bb hs n R W;
      destruct n as [lv b hv ch]; cbn [repr n_level n_bbox n_haz n_children] in R;
      destruct R as (-> & -> & V & C); cbn [node_definitely];
      destruct (strongest_spec hv hs irr V) as (s & -> & Hs); cbn [rbind];
      destruct s as [sh|];
      try (f_equal; symmetry; apply tri_all_false; intros t Ht; apply in_map_iff in Ht as (x & _ & Hx);
           apply filter_In in Hx as (Hx & Rx); rewrite (Hs x Hx) in Rx; discriminate);
      destruct Hs as (Hin & Hrel & Hmax);
      (destruct (qr bb) eqn:Eq;
       [|f_equal; symmetry; apply tri_all_false; intros t Ht; apply in_map_iff in Ht as (x & <- & Hx);
         apply tri_rect; exact Eq]);
      (pose proof W as W0; rewrite Forall_forall in W0; pose proof (W0 sh Hin) as Wsh; unfold wf_qth in Wsh;
       destruct (q_pres sh) as [|p|] eqn:Es; [contradiction| |
         f_equal; symmetry; apply tri_all_true; apply in_map_iff; exists sh; split;
         [cbn [tri]; simpl; rewrite Eq, Es; reflexivity|apply filter_In; auto]]).
    - subst ch. f_equal. apply tri_eq_iff.
      + split; [discriminate|]. intros H. apply tri_all_true in H. apply in_map_iff in H as (x & Ex & Hx).
        apply filter_In in Hx as (Hx & Rx). specialize (Hmax x Hx Rx). simpl in Ex. rewrite Eq in Ex.
        destruct (q_pres x); simpl in *; try discriminate; lia.
      + split; [discriminate|]. intros H. exfalso. rewrite tri_all_false in H.
        assert (T : tri 0 bb qr sh = TIndet) by (simpl; rewrite Eq, Es; reflexivity).
        rewrite (H (tri 0 bb qr sh)) in T; [discriminate|].
        apply in_map, filter_In; auto.
    - assert (Ep : existsb is_partial hs = true).
      { apply existsb_exists. exists sh. split; auto. unfold is_partial. rewrite Es. reflexivity. }
      rewrite Ep in C. destruct C as ([c0 c1 c2 c3] & -> & C).
      set (g := fun i => tri_all (map (tri l (q4get (quadrants bb) i) qr) (filter (relevant irr) (omap (con bb i) hs)))).
      assert (Hc : forall i, i < 4 -> node_definitely (q4get (Q4 c0 c1 c2 c3) i) qr irr = Ok (g i)).
      { intros i Hi. apply IH; [apply C; exact Hi|apply omap_con_wf; assumption]. }
      pose proof (Hc 0 ltac:(lia)) as E0. pose proof (Hc 1 ltac:(lia)) as E1.
      pose proof (Hc 2 ltac:(lia)) as E2. pose proof (Hc 3 ltac:(lia)) as E3.
      cbn [q4get qa qb qc qd] in E0, E1, E2, E3. rewrite E0, E1, E2, E3.
      change [Ok (g 0); Ok (g 1); Ok (g 2); Ok (g 3)] with (map (@Ok tribool) (map g [0;1;2;3])).
      rewrite tri_loop_spec by discriminate. f_equal.
      replace (tri_max TFalse (tri_all (map g [0; 1; 2; 3]))) with (tri_all (map g [0;1;2;3]))
        by (destruct (tri_all (map g [0;1;2;3])); reflexivity).
      assert (Hexp : forall h, In h hs -> relevant irr h = true ->
         tri (S l) bb qr h = tri_all (map (fun i => match con bb i h with
            | Some h' => tri l (q4get (quadrants bb) i) qr h' | None => TFalse end) [0;1;2;3])).
      { intros h Hh Rh. pose proof (W0 h Hh) as Wh. unfold wf_qth in Wh. specialize (Hmax h Hh Rh).
        cbn [tri]. rewrite Eq.
        destruct (q_pres h) as [|ph|]; [contradiction|reflexivity|simpl in Hmax; lia]. }
      (* both sides range over (quadrant, hazard) pairs *)
      assert (Hcorr : forall t, (t <> TFalse) ->
         (exists i h', i < 4 /\ In h' (omap (con bb i) hs) /\ relevant irr h' = true /\ tri l (q4get (quadrants bb) i) qr h' = t)
         <-> (exists i h h', i < 4 /\ In h hs /\ relevant irr h = true /\ con bb i h = Some h' /\ tri l (q4get (quadrants bb) i) qr h' = t)).
      { intros t _. split.
        - intros (i & h' & Hi & Hh' & Rh' & Et). apply in_omap in Hh' as (h & Hh & Ec).
          exists i, h, h'. repeat split; auto. rewrite <- (relevant_con alive irr bb i h h'); auto.
        - intros (i & h & h' & Hi & Hh & Rh & Ec & Et). exists i, h'. repeat split; auto.
          + apply in_omap. eauto.
          + rewrite (relevant_con alive irr bb i h h'); auto. }
      assert (Lin : forall i, In i [0;1;2;3] <-> i < 4).
      { intros i. simpl. split; [lia|]. destruct i as [|[|[|[|i]]]]; auto; lia. }
      assert (Lft : forall t, t <> TFalse -> (In t (map (fun i => g i) [0;1;2;3]) -> True)) by auto.
      apply tri_eq_iff.
      + rewrite !tri_all_true. rewrite !in_map_iff. split.
        * intros (i & Gi & Hi). apply Lin in Hi. unfold g in Gi. apply tri_all_true in Gi.
          apply in_map_iff in Gi as (h' & Et & Hh'). apply filter_In in Hh' as (Hh' & Rh').
          destruct (proj1 (Hcorr TTrue ltac:(discriminate))) as (i' & h & h'' & Hi' & Hh & Rh & Ec & Et').
          { exists i, h'. auto. }
          exists h. split; [|apply filter_In; auto]. rewrite Hexp by assumption.
          apply tri_all_true. apply in_map_iff. exists i'. rewrite Ec. split; [exact Et'|apply Lin; auto].
        * intros (h & Et & Hh). apply filter_In in Hh as (Hh & Rh). rewrite Hexp in Et by assumption.
          apply tri_all_true in Et. apply in_map_iff in Et as (i & Et & Hi). apply Lin in Hi.
          destruct (con bb i h) as [h'|] eqn:Ec; [|discriminate].
          exists i. split; [|apply Lin; exact Hi]. unfold g. apply tri_all_true. apply in_map_iff.
          exists h'. split; [exact Et|]. apply filter_In. split; [apply in_omap; eauto|].
          rewrite (relevant_con alive irr bb i h h'); auto.
      + rewrite !tri_all_false. split.
        * intros H t Ht. apply in_map_iff in Ht as (h & <- & Hh). apply filter_In in Hh as (Hh & Rh).
          rewrite Hexp by assumption. apply tri_all_false. intros t Ht.
          apply in_map_iff in Ht as (i & <- & Hi). destruct (con bb i h) as [h'|] eqn:Ec; [|reflexivity].
          apply Lin in Hi.
          assert (Gi : g i = TFalse) by (apply H, in_map, Lin, Hi).
          unfold g in Gi. rewrite tri_all_false in Gi. apply Gi. apply in_map, filter_In.
          split; [apply in_omap; eauto|]. rewrite (relevant_con alive irr bb i h h'); auto.
        * intros H t Ht. apply in_map_iff in Ht as (i & <- & Hi). apply Lin in Hi. unfold g.
          apply tri_all_false. intros t Ht. apply in_map_iff in Ht as (h' & <- & Hh').
          apply filter_In in Hh' as (Hh' & Rh'). apply in_omap in Hh' as (h & Hh & Ec).
          assert (Rh : relevant irr h = true) by (rewrite <- (relevant_con alive irr bb i h h'); auto).
          assert (Th : tri (S l) bb qr h = TFalse).
          { apply H. apply in_map, filter_In. auto. }
          rewrite Hexp in Th by assumption. rewrite tri_all_false in Th. apply Th.
          apply in_map_iff. exists i. rewrite Ec. split; [reflexivity|apply Lin; auto].
  Qed.

  Lemma node_definitely_with_spec : forall alive qr e lvl bb hs n,
    repr lvl bb hs n -> Forall (wf_qth alive) hs -> NoDup (map q_ent hs) ->
    node_definitely_with n qr e =
    Ok (match find (fun h => ent_eqb (q_ent h) e && q_act h) hs with
        | Some h => tri lvl bb qr h
        | None => TFalse end).
  Proof.
    intros alive qr e. induction lvl as [|l IH]; intros bb hs n R W ND;
      destruct n as [lv b hv ch]; cbn [repr n_level n_bbox n_haz n_children] in R;
      destruct R as (-> & -> & V & C); cbn [node_definitely_with];
      pose proof (hv_get_spec hv hs e V ND) as G;
      pose proof W as W0; rewrite Forall_forall in W0;
      (destruct (hv_get hv e) as [h|];
       [destruct G as (Hin & Ha & Ee)|
        destruct (find _ hs) as [h|] eqn:Ef; [|reflexivity]; exfalso;
        apply find_some in Ef as (A & B); apply andb_true_iff in B as (B1 & B2);
        apply ent_eqb_ok in B1; exact (G h A B2 B1)]);
      (assert (Ef : find (fun h => ent_eqb (q_ent h) e && q_act h) hs = Some h);
       [clear -Hin Ha Ee ND; induction hs as [|x hs IHs]; [destruct Hin|]; simpl in *;
        inversion ND as [|? ? Nx Nd]; subst;
        destruct Hin as [->|Hin];
        [rewrite ent_eqb_refl, Ha; reflexivity|];
        destruct (ent_eqb (q_ent x) (q_ent h)) eqn:E;
        [apply ent_eqb_ok in E; exfalso; apply Nx; rewrite E; apply in_map; exact Hin|];
        simpl; auto|]); rewrite Ef;
      (destruct (qr bb) eqn:Eq; [|rewrite tri_rect by exact Eq; reflexivity]);
      pose proof (W0 h Hin) as Wh; unfold wf_qth in Wh;
      destruct (q_pres h) as [|p|] eqn:Es; [contradiction| | cbn [tri]; rewrite ?Eq, ?Es; reflexivity
        |contradiction| | cbn [tri]; rewrite ?Eq, ?Es; reflexivity ].
    - subst ch. cbn [tri]. rewrite Eq, Es. reflexivity.
    - assert (Ep : existsb is_partial hs = true).
      { apply existsb_exists. exists h. split; auto. unfold is_partial. rewrite Es. reflexivity. }
      rewrite Ep in C. destruct C as ([c0 c1 c2 c3] & -> & C).
      set (g := fun i => match con bb i h with
            | Some h' => tri l (q4get (quadrants bb) i) qr h' | None => TFalse end).
      assert (Hc : forall i, i < 4 -> node_definitely_with (q4get (Q4 c0 c1 c2 c3) i) qr e = Ok (g i)).
      { intros i Hi. rewrite (IH _ _ _ (C i Hi) (omap_con_wf alive bb i hs Hi W)
                              (omap_con_ents alive bb i hs Hi W ND)). f_equal. unfold g.
        assert (K : forall h' , In h' (omap (con bb i) hs) -> ent_eqb (q_ent h') e && q_act h' = true ->
                    con bb i h = Some h').
        { intros h' Hh' E. apply andb_true_iff in E as (E1 & E2). apply ent_eqb_ok in E1.
          apply in_omap in Hh' as (h0 & Hh0 & Ec).
          pose proof (con_spec alive h0 bb i (W0 h0 Hh0) Hi) as K. rewrite Ec in K. destruct K as (K1 & K2 & _).
          assert (h0 = h).
          { assert (E0 : q_ent h0 = q_ent h) by congruence. clear -ND Hh0 Hin E0.
            induction hs as [|x hs IHs]; [destruct Hin|]. simpl in ND. inversion ND as [|? ? Nx Nd]; subst.
            destruct Hh0 as [->|Hh0], Hin as [->|Hin]; auto.
            - exfalso. apply Nx. rewrite E0. apply in_map. exact Hin.
            - exfalso. apply Nx. rewrite <- E0. apply in_map. exact Hh0. }
          subst h0. exact Ec. }
        destruct (find _ (omap (con bb i) hs)) as [h'|] eqn:Ef'.
        - apply find_some in Ef' as (A & B). rewrite (K h' A B). reflexivity.
        - destruct (con bb i h) as [h'|] eqn:Ec; [|reflexivity]. exfalso.
          pose proof (con_spec alive h bb i (W0 h Hin) Hi) as K'. rewrite Ec in K'. destruct K' as (K1 & K2 & _).
          pose proof (find_none _ _ Ef' h') as X. cbv beta in X. rewrite K1, K2, Ha, Ee, ent_eqb_refl in X.
          discriminate X. apply in_omap. eauto. }
      pose proof (Hc 0 ltac:(lia)) as E0. pose proof (Hc 1 ltac:(lia)) as E1.
      pose proof (Hc 2 ltac:(lia)) as E2. pose proof (Hc 3 ltac:(lia)) as E3.
      cbn [q4get qa qb qc qd] in E0, E1, E2, E3. rewrite E0, E1, E2, E3.
      change [Ok (g 0); Ok (g 1); Ok (g 2); Ok (g 3)] with (map (@Ok tribool) (map g [0;1;2;3])).
      rewrite tri_loop_spec by discriminate. f_equal. cbn [tri]. rewrite Eq, Es.
      change (map (fun i => match con bb i h with
            | Some h' => tri l (q4get (quadrants bb) i) qr h' | None => TFalse end) [0;1;2;3]) with (map g [0;1;2;3]).
      destruct (tri_all (map g [0;1;2;3])); reflexivity.
  Qed.

  (** *** tri-state against boolean *)
  Lemma tri_hits : forall q lvl bb h,
    (tri lvl bb (qy_rect q) h = TTrue -> hits lvl bb q h = true) /\
    (tri lvl bb (qy_rect q) h = TFalse -> hits lvl bb q h = false).
  Proof.
    intros q. induction lvl as [|l IH]; intros bb h; cbn [tri hits];
      destruct (qy_rect q bb); cbn [andb]; try (split; [discriminate|auto]);
      destruct (q_pres h) as [|p|]; try (split; auto; discriminate).
    split.
    - intros H. apply tri_all_true in H.
      apply in_map_iff in H as (i & E & Hi).
      change (existsb (fun i => match con bb i h with Some h' => hits l (q4get (quadrants bb) i) q h' | None => false end) [0;1;2;3] = true).
      apply existsb_exists. exists i. split; [exact Hi|].
      destruct (con bb i h) as [h'|]; [|discriminate]. apply IH. exact E.
    - intros H.
      change (tri_all (map (fun i => match con bb i h with Some h' => tri l (q4get (quadrants bb) i) (qy_rect q) h' | None => TFalse end) [0;1;2;3]) = TFalse) in H.
      rewrite tri_all_false in H.
      change (existsb (fun i => match con bb i h with Some h' => hits l (q4get (quadrants bb) i) q h' | None => false end) [0;1;2;3] = false).
      apply existsb_false. intros i Hi. destruct (con bb i h) as [h'|] eqn:Ec; [|reflexivity].
      apply IH. apply H. apply in_map_iff. exists i. rewrite Ec. auto.
  Qed.

  (** *** collecting *)
  Definition collect_post (det : list entity) (ok : entity -> Prop) (must : Prop)
      (r : res (list entity)) : Prop :=
    exists new, r = Ok (det ++ new) /\ NoDup new /\
      (forall e, In e new -> ~ In e det /\ ok e) /\ (must -> new <> []).

  Lemma NoDup_app : forall {A} (l l' : list A), NoDup l -> NoDup l' ->
    (forall x, In x l -> ~ In x l') -> NoDup (l ++ l').
  Proof.
    induction l as [|x l IH]; intros l' H H' Hd; simpl; [assumption|].
    inversion H; subst. constructor.
    - intros X. apply in_app_or in X as [X|X]; [contradiction|].
      exact (Hd x (or_introl eq_refl) X).
    - apply IH; auto. intros y Hy. apply Hd. right; auto.
  Qed.

  Lemma relevant_app : forall det new (h : qth), relevant (det ++ new) h = true -> relevant det h = true.
  Proof.
    intros det new h H. unfold relevant in *. apply andb_true_iff in H as (A & B).
    rewrite A. apply negb_true_iff in B. apply memb_ent_false in B.
    apply negb_true_iff, memb_ent_false. intros X. apply B, in_or_app; auto.
  Qed.

  Lemma relevant_in : forall irr (h : qth), relevant irr h = true <-> q_act h = true /\ ~ In (q_ent h) irr.
  Proof.
    intros. unfold relevant. rewrite andb_true_iff, negb_true_iff, memb_ent_false. reflexivity.
  Qed.

  Definition hit_by (lvl : nat) (bb : rect) (q : query) (hs : list qth) (e : entity) : Prop :=
    exists h, In h hs /\ q_ent h = e /\ q_act h = true /\ hits lvl bb q h = true.

  Lemma collect_leaf : forall alive q bb hs act det,
    (forall h, In h act -> In h hs /\ q_act h = true) ->
    (forall h, In h act -> wf_qth alive h) ->
    qy_rect q bb = true ->
    (forall h, In h act -> ~ In (q_ent h) det -> pres_u8 (q_pres h) <= 1) ->
    collect_post det (hit_by 0 bb q hs)
      (exists h, In h act /\ ~ In (q_ent h) det /\ hits 0 bb q h = true)
      (rfold (fun d hz =>
         if memb ent_eqb (q_ent hz) d then Ok d
         else match q_pres hz with
              | PNone => Ok d
              | PEntire => Panic
              | PPartial p => b <- partial_collides alive q p ;;
                              Ok (if b then d ++ [q_ent hz] else d)
              end) act det).
  Proof.
    intros alive q bb hs act det Hhs Hwf Eq Hpart.
    destruct (rfold_inv (fun d hz =>
         if memb ent_eqb (q_ent hz) d then Ok d
         else match q_pres hz with
              | PNone => Ok d
              | PEntire => Panic
              | PPartial p => b <- partial_collides alive q p ;;
                              Ok (if b then d ++ [q_ent hz] else d)
              end)
       (fun done d => exists new, d = det ++ new /\ NoDup new /\
          (forall e, In e new -> ~ In e det /\ hit_by 0 bb q hs e) /\
          ((exists h, In h done /\ ~ In (q_ent h) det /\ hits 0 bb q h = true) -> new <> []))
       act det) as (d & -> & new & -> & A & B & C).
    - exists []. rewrite app_nil_r. split; [reflexivity|]. split; [constructor|].
      split; [intros e []|intros (h & [] & _)].
    - intros done h d (new & -> & ND & A & B) Hh.
      destruct (memb ent_eqb (q_ent h) (det ++ new)) eqn:M.
      + eexists; split; [reflexivity|]. exists new. repeat split; auto; try (apply A; assumption).
        intros (h' & Hh' & Nd & Hit). apply in_app_or in Hh' as [Hh'|[<-|[]]]; [eauto|].
        apply memb_ent in M. apply in_app_or in M as [M|M]; [contradiction|].
        intros ->; destruct M.
      + apply memb_ent_false in M.
        assert (Nd : ~ In (q_ent h) det) by (intros X; apply M, in_or_app; auto).
        specialize (Hpart h Hh Nd). pose proof (Hwf h Hh) as Wh. unfold wf_qth in Wh.
        destruct (q_pres h) as [|p|] eqn:Es; [contradiction| |simpl in Hpart; lia].
        rewrite (partial_collides_ok alive q p Wh). cbn [rbind].
        assert (Eh : hits 0 bb q h = pcol q p) by (simpl; rewrite Eq, Es; reflexivity).
        destruct (pcol q p).
        * eexists; split; [reflexivity|]. exists (new ++ [q_ent h]). split; [rewrite app_assoc; reflexivity|].
          split; [|split].
          -- apply NoDup_app; auto; [constructor; [intros []|constructor]|].
             intros e He [<-|[]]. apply M, in_or_app; auto.
          -- intros e He. apply in_app_or in He as [He|[<-|[]]]; [auto|]. split; [exact Nd|].
             destruct (Hhs h Hh) as (H1 & H2). exists h. auto.
          -- intros _ X. apply app_eq_nil in X as (_ & X). discriminate.
        * eexists; split; [reflexivity|]. exists new. repeat split; auto; try (apply A; assumption).
          intros (h' & Hh' & Nd' & Hit). apply in_app_or in Hh' as [Hh'|[<-|[]]]; [eauto|].
          congruence.
    - exists new. auto.
  Qed.

  Lemma collect_weaken : forall det (ok ok' : entity -> Prop) (must must' : Prop) r,
    collect_post det ok must r -> (forall e, ~ In e det -> ok e -> ok' e) -> (must' -> must) ->
    collect_post det ok' must' r.
  Proof.
    intros det ok ok' must must' r (new & E & ND & A & B) H1 H2. exists new.
    split; [exact E|]. split; [exact ND|]. split; [|auto].
    intros e He. destruct (A e He) as (A1 & A2). split; auto.
  Qed.

  Lemma collect_seq : forall det ok must1 must2 r1 (f : list entity -> res (list entity)),
    collect_post det ok must1 r1 ->
    (forall new, (forall e, In e new -> ~ In e det) ->
       collect_post (det ++ new) (fun e => ~ In e det -> ok e) (new = [] /\ must2) (f (det ++ new))) ->
    collect_post det ok (must1 \/ must2) (d <- r1 ;; f d).
  Proof.
    intros det ok must1 must2 r1 f (n1 & -> & ND1 & A1 & B1) H. cbn [rbind].
    destruct (H n1) as (n2 & E & ND2 & A2 & B2); [intros e He; apply A1; exact He|].
    exists (n1 ++ n2). split; [rewrite app_assoc; exact E|]. split; [|split].
    - apply NoDup_app; auto. intros e He X. apply (proj1 (A2 e X)), in_or_app; auto.
    - intros e He. apply in_app_or in He as [He|He]; [auto|]. destruct (A2 e He) as (X & Y).
      assert (~ In e det) by (intros Z; apply X, in_or_app; auto). auto.
    - intros [M|M] E0; apply app_eq_nil in E0 as (E1 & E2).
      + exact (B1 M E1).
      + apply (B2 (conj E1 M)). exact E2.
  Qed.

  Lemma node_collect_spec : forall alive q lvl bb hs n,
    repr lvl bb hs n -> Forall (wf_qth alive) hs -> forall det,
    collect_post det (hit_by lvl bb q hs)
      (exists h, In h hs /\ relevant det h = true /\ hits lvl bb q h = true)
      (node_collect alive n q det).
  Proof.
    intros alive q. induction lvl as [|l IH]; intros bb hs n R W det;
      destruct n as [lv b hv ch]; cbn [repr n_level n_bbox n_haz n_children] in R;
      destruct R as (-> & -> & V & C); cbn [node_collect];
      destruct (strongest_spec hv hs det V) as (s & -> & Hs); cbn [rbind];
      assert (Nil : ~ (exists h, In h hs /\ relevant det h = true /\ False)) by (intros (? & ? & ? & []));
      destruct s as [sh|];
      try (exists []; rewrite app_nil_r; split; [reflexivity|]; split; [constructor|]; split; [intros e []|];
           intros (h & Hh & Rh & _); rewrite (Hs h Hh) in Rh; discriminate);
      destruct Hs as (Hin & Hrel & Hmax);
      (destruct (qy_rect q bb) eqn:Eq;
       [|exists []; rewrite app_nil_r; split; [reflexivity|]; split; [constructor|]; split; [intros e []|];
         intros (h & Hh & Rh & Hit); rewrite hits_rect in Hit by exact Eq; discriminate]);
      (pose proof W as W0; rewrite Forall_forall in W0; pose proof (W0 sh Hin) as Wsh; unfold wf_qth in Wsh;
       pose proof Hrel as Hrel'; apply relevant_in in Hrel' as (Hact & Hnd);
       destruct (q_pres sh) as [|p|] eqn:Es; [contradiction| |
         exists [q_ent sh]; split; [reflexivity|]; split; [constructor; [intros []|constructor]|]; split;
         [intros e [<-|[]]; split; [exact Hnd|]; exists sh; repeat split; auto; cbn [hits]; rewrite Eq, Es; reflexivity
         |discriminate]]).
    - subst ch. destruct (active_hazards_rep hv hs V) as (act & -> & Pa & _). cbn [rbind].
      assert (Hact' : forall h, In h act <-> In h hs /\ q_act h = true).
      { intros h. rewrite <- filter_In. split; intros X; (eapply Permutation_in; [|exact X]); [exact Pa|symmetry; exact Pa]. }
      eapply collect_weaken; [apply (collect_leaf alive q bb hs)| |].
      + intros h Hh. apply Hact'; exact Hh.
      + intros h Hh. apply W0, Hact', Hh.
      + exact Eq.
      + intros h Hh Nd. apply Hact' in Hh as (Hh & Ah).
        apply Hmax; [exact Hh|apply relevant_in; auto].
      + auto.
      + intros (h & Hh & Rh & Hit). apply relevant_in in Rh as (Ah & Nh). exists h. repeat split; auto.
        apply Hact'; auto.
    - assert (Ep : existsb is_partial hs = true).
      { apply existsb_exists. exists sh. split; auto. unfold is_partial. rewrite Es. reflexivity. }
      rewrite Ep in C. destruct C as ([c0 c1 c2 c3] & -> & C).
      assert (Hexp : forall h, In h hs -> relevant det h = true ->
         hits (S l) bb q h = existsb (fun i => match con bb i h with
            | Some h' => hits l (q4get (quadrants bb) i) q h' | None => false end) [0;1;2;3]).
      { intros h Hh Rh. pose proof (W0 h Hh) as Wh. unfold wf_qth in Wh. specialize (Hmax h Hh Rh).
        cbn [hits]. rewrite Eq. cbn [andb].
        destruct (q_pres h) as [|ph|]; [contradiction|reflexivity|simpl in Hmax; lia]. }
      set (mustc := fun i => exists h h', In h hs /\ relevant det h = true /\ con bb i h = Some h' /\
                     hits l (q4get (quadrants bb) i) q h' = true).
      assert (Step : forall i c, i < 4 -> c = q4get (Q4 c0 c1 c2 c3) i ->
         forall new, (forall e, In e new -> ~ In e det) ->
         collect_post (det ++ new) (fun e => ~ In e det -> hit_by (S l) bb q hs e) (new = [] /\ mustc i)
           (node_collect alive c q (det ++ new))).
      { intros i c Hi -> new Hnew.
        destruct (IH _ _ _ (C i Hi) (omap_con_wf alive bb i hs Hi W) (det ++ new))
          as (nw & E & ND & A & B).
        exists nw. split; [exact E|]. split; [exact ND|]. split.
        - intros e He. destruct (A e He) as (A1 & h' & Hh' & Ee & Ah' & Hit). split; [exact A1|].
          intros Nd. apply in_omap in Hh' as (h & Hh & Ec).
          pose proof (con_spec alive h bb i (W0 h Hh) Hi) as K. rewrite Ec in K. destruct K as (K1 & K2 & _).
          assert (Rh : relevant det h = true) by (apply relevant_in; split; [congruence|rewrite <- K1, Ee; exact Nd]).
          exists h. split; [exact Hh|]. split; [congruence|]. split; [congruence|].
          rewrite Hexp by assumption. apply existsb_exists. exists i.
          split; [destruct i as [|[|[|[|i]]]]; simpl; auto; lia|]. rewrite Ec. exact Hit.
        - intros (En & h & h' & Hh & Rh & Ec & Hit). subst new. apply B. exists h'.
          split; [apply in_omap; eauto|]. rewrite app_nil_r.
          split; [rewrite (relevant_con alive det bb i h h'); auto|exact Hit]. }
      eapply collect_weaken with (must := ((mustc 0 \/ mustc 1) \/ mustc 2) \/ mustc 3) (ok := hit_by (S l) bb q hs);
        [| auto |].
      + replace (d0 <- node_collect alive c0 q det;; d1 <- node_collect alive c1 q d0;;
                 d2 <- node_collect alive c2 q d1;; node_collect alive c3 q d2)
          with (d2 <- (d1 <- (d0 <- node_collect alive c0 q det;; node_collect alive c1 q d0);;
                       node_collect alive c2 q d1);; node_collect alive c3 q d2).
        2:{ destruct (node_collect alive c0 q det); cbn [rbind]; [|reflexivity].
            destruct (node_collect alive c1 q a); reflexivity. }
        assert (Base : collect_post det (hit_by (S l) bb q hs) (mustc 0) (node_collect alive c0 q det)).
        { pose proof (Step 0 c0 ltac:(lia) eq_refl [] ltac:(intros ? [])) as X. rewrite app_nil_r in X.
          eapply collect_weaken; [exact X| |].
          - intros e Nd K. exact (K Nd).
          - intros M. split; [reflexivity|exact M]. }
        apply collect_seq; [apply collect_seq; [apply collect_seq; [exact Base|]|]|];
          intros new Hnew; eapply Step; try exact Hnew; try lia; reflexivity.
      + intros (h & Hh & Rh & Hit). rewrite Hexp in Hit by assumption.
        apply existsb_exists in Hit as (i & Hi & Hit).
        destruct (con bb i h) as [h'|] eqn:Ec; [|discriminate].
        assert (M : mustc i) by (exists h, h'; auto).
        destruct Hi as [<-|[<-|[<-|[<-|[]]]]]; auto.
  Qed.
End QTP.
