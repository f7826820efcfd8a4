(** Vocabulary of the statements about the collision detection engine: histories
    of operations, the abstract set of hazards a history produces, and yes/no/maybe
    questions. Definitions only. *)
From Coq Require Import List Bool Arith Permutation.
From Verif Require Import Base Num GeoModel HazardModel QTModel TransfModel HpgModel CdeModel.
Import ListNotations.

Section Spec.
  Context {F : Type} {N : Num F} {D : Type} {ED : EqD D} {BS : BSearch}.
  Local Notation hazard := (hazard F D).
  Local Notation entity := (entity D).
  Local Notation poly := (poly F).
  Local Notation cde := (cde F D).
  Local Notation snapshot := (snapshot F D).

  (** *** histories *)
  (** The state-changing API of cd_engine.rs:75-218, 254-258.  Snapshots are kept in
      a list; [ORestore k] restores the [k]-th. *)
  Inductive op :=
  | OReg (h : hazard)
  | ODereg (e : entity) (instant : bool)
  | OCommit
  | OFlush
  | OSnap
  | ORestore (k : nat).
  Definition state : Type := (cde * list snapshot)%type.
  Definition step (s : state) (o : op) : res state :=
    let '(c, sn) := s in
    match o with
    | OReg h => c' <- cde_register c h ;; Ok (c', sn)
    | ODereg e b => c' <- cde_deregister c e b ;; Ok (c', sn)
    | OCommit => c' <- cde_commit c ;; Ok (c', sn)
    | OFlush => c' <- cde_flush c ;; Ok (c', sn)
    | OSnap => '(s', c') <- cde_snapshot c ;; Ok (c', sn ++ [s'])
    | ORestore k => s' <- expect (nth_error sn k) ;; c' <- cde_restore c s' ;; Ok (c', sn)
    end.
  (** a new engine on which the operations are performed *)
  Definition engine (bb : rect F) (statics : list hazard) (depth n_cells : nat) (ops : list op)
      : res state :=
    c <- cde_new bb statics depth n_cells ;; rfold step ops (c, []).

  (** *** the abstract meaning of a history: a set of hazards *)
  (** what identifies a hazard: entity, shape, activity flag (not the allocation) *)
  Definition fact : Type := (entity * poly * bool)%type.
  Definition fact_of (h : hazard) : fact := (h_ent h, a_obj (h_shape h), h_active h).
  Definition f_ent (f : fact) : entity := fst (fst f).
  Definition astate : Type := (list fact * list (list fact))%type.
  Definition without (e : entity) (A : list fact) : list fact :=
    filter (fun f => negb (ent_eqb (f_ent f) e)) A.
  Definition astep (s : astate) (o : op) : astate :=
    let '(A, sv) := s in
    match o with
    | OReg h => (fact_of h :: A, sv)
    | ODereg e _ => (without e A, sv)
    | OCommit | OFlush => (A, sv)
    | OSnap => (A, sv ++ [A])
    | ORestore k => (nth k sv [], sv)
    end.
  Definition dynamic_facts (ops : list op) : list fact := fst (fold_left astep ops ([], [])).
  Definition facts (statics : list hazard) (ops : list op) : list fact :=
    map fact_of statics ++ dynamic_facts ops.

  (** *** valid histories *)
  (** every edge of the polygon exists: at least one point, no two consecutive
      points equal (guaranteed by [SimplePolygon::new]) *)
  Definition good_poly (s : poly) : Prop :=
    forall i, i < n_points s -> exists e, get_edge s i = Ok e.
  (** An entity always denotes the same shape and activity flag.  (The entity of a
      placed item contains the item and its transformation.) *)
  Definition denotes (shp : entity -> poly * bool) (h : hazard) : Prop :=
    shp (h_ent h) = (a_obj (h_shape h), h_active h).
  Definition op_ok (shp : entity -> poly * bool) (statics : list hazard) (s : astate) (o : op) : Prop :=
    match o with
    | OReg h => good_poly (a_obj (h_shape h)) /\ denotes shp h /\
                ~ In (h_ent h) (map (@h_ent F D) statics) /\ ~ In (h_ent h) (map f_ent (fst s))
    | ODereg e _ => In e (map f_ent (fst s))
    | OCommit | OFlush | OSnap => True
    | ORestore k => k < length (snd s)
    end.
  Fixpoint ops_ok (shp : entity -> poly * bool) (statics : list hazard) (s : astate) (ops : list op)
      : Prop :=
    match ops with
    | [] => True
    | o :: r => op_ok shp statics s o /\ ops_ok shp statics (astep s o) r
    end.
  Definition statics_ok (statics : list hazard) : Prop :=
    Forall (fun h => good_poly (a_obj (h_shape h))) statics /\ NoDup (map (@h_ent F D) statics).
  Definition valid (statics : list hazard) (ops : list op) : Prop :=
    statics_ok statics /\ exists shp, ops_ok shp statics ([], []) ops.

  (** *** questions *)
  Inductive question :=
  | AskPoly (s : poly) (irr : list entity)
  | AskSurrogate (s : surrogate F) (t : transf F) (irr : list entity)
  | AskBoth (s : poly) (t : transf F) (buf : poly) (irr : list entity)
  | AskQuery (q : query F) (irr : list entity)
  | AskPoint (p : point F) (e : entity)
  | AskEdge (e : edge F) (irr : list entity)
  | AskCircle (k : circle F) (irr : list entity).
  Definition yn (b : bool) : tribool := if b then TTrue else TFalse.
  Definition ask (c : cde) (q : question) : res tribool :=
    match q with
    | AskPoly s irr => b <- poly_collides c s irr ;; Ok (yn b)
    | AskSurrogate s t irr => b <- surrogate_collides c s t irr ;; Ok (yn b)
    | AskBoth s t buf irr => '(b, _) <- surrogate_or_poly_collides c s t buf irr ;; Ok (yn b)
    | AskQuery q irr => b <- qt_hit c irr q ;; Ok (yn b)
    | AskPoint p e => point_definitely c p e
    | AskEdge e irr => edge_definitely c e irr
    | AskCircle k irr => circle_definitely c k irr
    end.
  Definition good_surrogate (s : surrogate F) : Prop := s_nff s <= length (s_poles s).
  (** the arguments a question needs to be meaningful *)
  Definition good_question (q : question) : Prop :=
    match q with
    | AskPoly s _ => good_poly s
    | AskSurrogate s _ _ => good_surrogate s
    | AskBoth s t buf _ =>
        (exists u, p_surr s = Some u /\ good_surrogate u) /\
        exists b, tr_poly_from t buf s = Ok b /\ good_poly b
    | _ => True
    end.
  (** the ignore list of a question, and the question without / with another one *)
  Definition with_irr (q : question) (irr : list entity) : question :=
    match q with
    | AskPoly s _ => AskPoly s irr
    | AskSurrogate s t _ => AskSurrogate s t irr
    | AskBoth s t b _ => AskBoth s t b irr
    | AskQuery q _ => AskQuery q irr
    | AskPoint p e => AskPoint p e
    | AskEdge e _ => AskEdge e irr
    | AskCircle k _ => AskCircle k irr
    end.
  Definition has_irr (q : question) : bool := match q with AskPoint _ _ => false | _ => true end.
  (** No < Maybe < Yes *)
  Definition tri_le (a b : tribool) : Prop :=
    match a, b with
    | TFalse, _ => True
    | TIndet, (TIndet | TTrue) => True
    | TTrue, TTrue => True
    | _, _ => False
    end.
  (** the same history with every deregistration instant and no explicit commit or
      flush *)
  Fixpoint instant (ops : list op) : list op :=
    match ops with
    | [] => []
    | ODereg e _ :: r => ODereg e true :: instant r
    | OCommit :: r | OFlush :: r => instant r
    | o :: r => o :: instant r
    end.
  (** number of snapshots taken *)
  Fixpoint snaps (ops : list op) : nat :=
    match ops with [] => 0 | OSnap :: r => S (snaps r) | _ :: r => snaps r end.

  (** *** collecting *)
  Inductive collection :=
  | CollPoly (s : poly)
  | CollSurrogate (s : surrogate F) (t : transf F)
  | CollWithin (q : query F).
  Definition collect (c : cde) (k : collection) (irr buf : list entity) : res (list entity) :=
    match k with
    | CollPoly s => collect_poly c s irr buf
    | CollSurrogate s t => collect_surrogate c s t irr buf
    | CollWithin q => hazards_within c q irr buf
    end.
  Definition good_collection (k : collection) : Prop :=
    match k with
    | CollPoly s => good_poly s
    | CollSurrogate s _ => good_surrogate s
    | CollWithin _ => True
    end.
  (** the yes/no question that goes with a collection *)
  Definition verdict_of (k : collection) (irr : list entity) : question :=
    match k with
    | CollPoly s => AskPoly s irr
    | CollSurrogate s t => AskSurrogate s t irr
    | CollWithin q => AskQuery q irr
    end.
  (** the polygon lies within the engine's bounding box (always so for the other two) *)
  Definition inside_box (bb : rect F) (k : collection) : Prop :=
    match k with
    | CollPoly s => relation_to bb (p_bbox s) = Surrounding
    | _ => True
    end.
  (** the shape query of [collect_potential_hazards_within] reports the bin exterior
      when the query's centre is outside the box; excluded by *)
  Definition centre_inside (bb : rect F) (k : collection) : Prop :=
    match k with
    | CollWithin q => rp_collides bb (qy_cen q) = true
    | _ => True
    end.
  (** the hazard of an answered boolean query *)
  Definition reported (c : cde) (q : query F) (irr : list entity) : res (option entity) :=
    node_collides (cd_alive c) (cd_qt c) q irr.
End Spec.

(** *** a node's hazard list on its own *)
Section HvSpec.
  Context {F : Type} {D : Type} {ED : EqD D} {BS : BSearch}.
  Local Notation qth := (qth F D).
  Local Notation entity := (entity D).
  Inductive hvop := HAdd (h : qth) | HRemove (e : entity) | HActivate (e : entity) | HDeactivate (e : entity).
  Definition hv_step (v : hvec F D) (o : hvop) : hvec F D :=
    match o with
    | HAdd h => hv_add v h
    | HRemove e => snd (hv_remove v e)
    | HActivate e => snd (hv_activate v e)
    | HDeactivate e => snd (hv_deactivate v e)
    end.
  Definition set_flag (e : entity) (b : bool) (h : qth) : qth :=
    if ent_eqb (q_ent h) e then Qh (q_ent h) (q_pres h) b else h.
  (** the stored hazards *)
  Definition hv_astep (A : list qth) (o : hvop) : list qth :=
    match o with
    | HAdd h => h :: A
    | HRemove e => filter (fun h => negb (ent_eqb (q_ent h) e)) A
    | HActivate e => map (set_flag e true) A
    | HDeactivate e => map (set_flag e false) A
    end.
  (** a hazard is added once, and (de)activated only if it is not yet *)
  Definition hvop_ok (A : list qth) (o : hvop) : Prop :=
    match o with
    | HAdd h => ~ In (q_ent h) (map (@q_ent F D) A)
    | HRemove e => True
    | HActivate e => forall h, In h A -> q_ent h = e -> q_act h = false
    | HDeactivate e => forall h, In h A -> q_ent h = e -> q_act h = true
    end.
  Fixpoint hvops_ok (A : list qth) (ops : list hvop) : Prop :=
    match ops with [] => True | o :: r => hvop_ok A o /\ hvops_ok (hv_astep A o) r end.
  Definition stronger_eq (p q : presence F) : Prop :=
    match p, q with
    | PEntire, _ => True
    | PPartial _, (PPartial _ | PNone) => True
    | PNone, PNone => True
    | _, _ => False
    end.
  (** candidates of a strongest-hazard query *)
  Definition candidate (A : list qth) (irr : list entity) (h : qth) : Prop :=
    In h A /\ q_act h = true /\ ~ In (q_ent h) irr.
End HvSpec.
Arguments op F D : clear implicits.
Arguments question F D : clear implicits.
Arguments fact F D : clear implicits.
Arguments collection F : clear implicits.
Arguments hvop F D : clear implicits.
