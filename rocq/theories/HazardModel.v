(** Hazards, hazard filters, and the hazards stored in quadtree nodes:
    [/repo/jagua-rs/src/collision_detection/hazard.rs], [hazard_filter.rs],
    [quadtree/qt_partial_hazard.rs], [quadtree/qt_hazard.rs],
    [quadtree/qt_hazard_vec.rs].  Definitions only. *)
From Coq Require Import List Bool Arith ZArith.
From Verif Require Import Base Num GeoModel.
Import ListNotations.

(** [DTransformation] enters only through its equality test
    ([d_transformation.rs], derived [PartialEq] on [NotNan] components, an
    equivalence; the model takes its quotient, so equality is Leibniz). *)
Class EqD (D : Type) := {
  deq : D -> D -> bool;
  deq_ok : forall x y, deq x y = true <-> x = y
}.

(** [slice::binary_search_by(f)].  [std] does not specify which of several equal
    elements is found, so the model is parametric in the implementation; the
    contract is [bsearch_ok] below. *)
Class BSearch := { bsearch : forall A : Type, (A -> comparison) -> list A -> bsres }.
Arguments bsearch {_ A} _ _.
(** the [std] contract on a slice whose elements compare [Less]*, [Equal]*,
    [Greater]* *)
Definition bs_partitioned {A} (f : A -> comparison) (l : list A) : Prop :=
  exists l1 l2 l3, l = l1 ++ l2 ++ l3 /\ Forall (fun x => f x = Lt) l1 /\
    Forall (fun x => f x = Eq) l2 /\ Forall (fun x => f x = Gt) l3.
Definition bsearch_ok (B : BSearch) : Prop :=
  forall A (f : A -> comparison) (l : list A), bs_partitioned f l ->
    match bsearch f l with
    | BFound i => exists x, nth_error l i = Some x /\ f x = Eq
    | BInsert i => i <= length l /\ Forall (fun x => f x = Lt) (firstn i l) /\
                   Forall (fun x => f x = Gt) (skipn i l)
    end.

(** hazard.rs:29-40 *)
Inductive entity (D : Type) :=
| PlacedItem (id : nat) (dt : D)
| BinExterior
| BinHole (id : nat)
| InferiorQualityZone (quality id : nat).
Arguments PlacedItem {D} _ _.
Arguments BinExterior {D}.
Arguments BinHole {D} _.
Arguments InferiorQualityZone {D} _ _.

(** [Arc<SimplePolygon>]: an allocation [ptr] holding [obj]. *)
Record arc (F : Type) := Arc { a_ptr : nat; a_obj : poly F }.
Arguments Arc {F} _ _.
Arguments a_ptr {F} _.
Arguments a_obj {F} _.

(** hazard.rs:10-17 *)
Record hazard (F D : Type) := Hz { h_ent : entity D; h_shape : arc F; h_active : bool }.
Arguments Hz {F D} _ _ _.
Arguments h_ent {F D} _.
Arguments h_shape {F D} _.
Arguments h_active {F D} _.

(** qt_partial_hazard.rs:91-97 *)
Inductive redges := REAll | RESome (l : list nat).
(** qt_partial_hazard.rs:11-14.  The [Weak] reference is the arc itself;
    upgrading it asks whether the allocation is still owned. *)
Record partial (F : Type) := Par { pa_shape : arc F; pa_edges : redges }.
Arguments Par {F} _ _.
Arguments pa_shape {F} _.
Arguments pa_edges {F} _.
(** qt_hazard.rs:24-32 *)
Inductive presence (F : Type) := PNone | PPartial (p : partial F) | PEntire.
Arguments PNone {F}.
Arguments PPartial {F} _.
Arguments PEntire {F}.
(** qt_hazard.rs:16-21 *)
Record qth (F D : Type) := Qh { q_ent : entity D; q_pres : presence F; q_act : bool }.
Arguments Qh {F D} _ _ _.
Arguments q_ent {F D} _.
Arguments q_pres {F D} _.
Arguments q_act {F D} _.

(** qt_hazard_vec.rs:12-15.  [n_active] is a [usize]; it is modelled by a [Z] so
    that a wrong count is visible instead of wrapping. *)
Record hvec (F D : Type) := Hv { hv_list : list (qth F D); hv_n : Z }.
Arguments Hv {F D} _ _.
Arguments hv_list {F D} _.
Arguments hv_n {F D} _.

(** What the quadtree needs to know of a query object ([QTQueryable],
    qt_traits.rs:10): collision with a rectangle, with an edge, centroid. *)
Record query (F : Type) := Qry {
  qy_rect : rect F -> bool; qy_edge : edge F -> bool; qy_cen : point F }.
Arguments Qry {F} _ _ _.
Arguments qy_rect {F} _ _.
Arguments qy_edge {F} _ _.
Arguments qy_cen {F} _.

Section Hazards.
  Context {F : Type} {N : Num F} {D : Type} {ED : EqD D} {BS : BSearch}.
  Local Notation point := (point F).
  Local Notation edge := (edge F).
  Local Notation rect := (rect F).
  Local Notation circle := (circle F).
  Local Notation poly := (poly F).
  Local Notation entity := (entity D).
  Local Notation arc := (arc F).
  Local Notation hazard := (hazard F D).
  Local Notation partial := (partial F).
  Local Notation presence := (presence F).
  Local Notation qth := (qth F D).
  Local Notation hvec := (hvec F D).
  Local Notation query := (query F).

  (** edge.rs:174-187 ; circle.rs:89-108 ; aa_rectangle.rs:205-283 *)
  Definition edge_query (e : edge) : query :=
    Qry (fun r => re_collides r e) (fun e' => ee_collides e e') (e_centroid e).
  Definition circle_query (c : circle) : query :=
    Qry (fun r => cr_collides c r) (fun e => ce_collides c e) (ccen c).
  Definition rect_query (r : rect) : query :=
    Qry (fun r' => rr_collides r r') (fun e => re_collides r e) (r_centroid r).

  (** derived [PartialEq], hazard.rs:28 *)
  Definition ent_eqb (a b : entity) : bool :=
    match a, b with
    | PlacedItem i d, PlacedItem j e => Nat.eqb i j && deq d e
    | BinExterior, BinExterior => true
    | BinHole i, BinHole j => Nat.eqb i j
    | InferiorQualityZone q i, InferiorQualityZone r j => Nat.eqb q r && Nat.eqb i j
    | _, _ => false
    end.
  (** hazard.rs:44-51 *)
  Definition ent_position (e : entity) : geopos :=
    match e with BinExterior => Exterior | _ => Interior end.
  (** hazard.rs:54-61 *)
  Definition ent_dynamic (e : entity) : bool :=
    match e with PlacedItem _ _ => true | _ => false end.
  (** hazard.rs:64-71 *)
  Definition ent_universal (e : entity) : bool :=
    match e with InferiorQualityZone _ _ => false | _ => true end.
  (** hazard.rs:20-26 *)
  Definition hazard_new (e : entity) (s : arc) : hazard := Hz e s true.

  (** *** hazard_filter.rs *)
  Definition hfilter := entity -> bool.   (** the trait, lines 8-10 *)
  (** hazard_filter.rs:13-23 *)
  Definition generate_irrelevant (f : hfilter) (hs : list hazard) : list entity :=
    omap (fun h => if f (h_ent h) then Some (h_ent h) else None) hs.
  (** hazard_filter.rs:41-50 *)
  Definition bin_filter : hfilter :=
    fun e => match e with PlacedItem _ _ => false | _ => true end.
  (** hazard_filter.rs:52-56 *)
  Definition combined_filter (fs : list hfilter) : hfilter :=
    fun e => existsb (fun f => f e) fs.
  (** hazard_filter.rs:58-62 *)
  Definition entity_filter (l : list entity) : hfilter := fun e => memb ent_eqb e l.
  (** hazard_filter.rs:64-71 *)
  Definition qz_filter (cutoff : nat) : hfilter :=
    fun e => match e with InferiorQualityZone q _ => Nat.leb cutoff q | _ => false end.

  (** *** qt_partial_hazard.rs *)
  (** qt_partial_hazard.rs:37-41.  [alive p] says whether the allocation [p] still
      has a strong reference. *)
  Definition shape_arc (alive : nat -> bool) (p : partial) : res arc :=
    if alive (a_ptr (pa_shape p)) then Ok (pa_shape p) else Panic.
  (** qt_partial_hazard.rs:16-27 *)
  Definition partial_of_hazard (h : hazard) : partial := Par (h_shape h) REAll.
  (** qt_partial_hazard.rs:47-54 *)
  Definition add_edge_index (p : partial) (i : nat) : res partial :=
    match pa_edges p with
    | REAll => Panic
    | RESome l => Ok (Par (pa_shape p) (RESome (l ++ [i])))
    end.
  (** qt_partial_hazard.rs:58 *)
  Definition BBOX_CHECK_THRESHOLD : nat := 10.
  (** qt_partial_hazard.rs:62-89 *)
  Definition partial_collides (alive : nat -> bool) (q : query) (p : partial) : res bool :=
    a <- shape_arc alive p ;;
    let s := a_obj a in
    let scan := rany (fun i => e <- get_edge s i ;; Ok (qy_edge q e)) in
    match pa_edges p with
    | REAll => if qy_rect q (p_bbox s) then scan (edge_indices s) else Ok false
    | RESome l =>
        match length l with
        | 0 => Panic
        | n => if Nat.ltb n BBOX_CHECK_THRESHOLD then scan l
               else if qy_rect q (p_bbox s) then scan l else Ok false
        end
    end.

  (** *** qt_hazard.rs *)
  (** qt_hazard.rs:34-43 *)
  Definition qth_new (e : entity) (p : presence) (act : bool) : option qth :=
    match p with PNone => None | _ => Some (Qh e p act) end.
  (** qt_hazard.rs:189-200 *)
  Definition qth_of_hazard (h : hazard) : qth :=
    Qh (h_ent h) (PPartial (partial_of_hazard h)) true.
  (** qt_hazard.rs:154-174, one quadrant *)
  Definition add_edge_q (a : arc) (i : nat) (e : edge) (quad : rect)
      (p : option presence) : res (option presence) :=
    if re_collides quad e then
      match p with
      | None => Ok (Some (PPartial (Par a (RESome [i]))))
      | Some (PPartial ch) => ch' <- add_edge_index ch i ;; Ok (Some (PPartial ch'))
      | Some _ => Panic
      end
    else Ok p.
  (** qt_hazard.rs:146-176 *)
  Definition add_edge_to_q_presences (a : arc) (quads : q4 rect)
      (qp : q4 (option presence)) (i : nat) : res (q4 (option presence)) :=
    e <- get_edge (a_obj a) i ;;
    p0 <- add_edge_q a i e (qa quads) (qa qp) ;;
    p1 <- add_edge_q a i e (qb quads) (qb qp) ;;
    p2 <- add_edge_q a i e (qc quads) (qc qp) ;;
    p3 <- add_edge_q a i e (qd quads) (qd qp) ;;
    Ok (Q4 p0 p1 p2 p3).
  Definition is_entire (p : option presence) : bool :=
    match p with Some PEntire => true | _ => false end.
  Definition is_pnone (p : option presence) : bool :=
    match p with Some PNone => true | _ => false end.
  (** qt_hazard.rs:103-132, round [i] of the loop *)
  Definition resolve_quadrant (pos : geopos) (s : poly) (quads : q4 rect)
      (qp : q4 (option presence)) (i : nat) : res (q4 (option presence)) :=
    match q4get qp i with
    | Some _ => Ok qp
    | None =>
        let '(n0, n1) := quadrant_neighbors i in
        if is_entire (q4get qp n0) then Ok (q4set qp i (Some PEntire))
        else if is_entire (q4get qp n1) then Ok (q4set qp i (Some PEntire))
        else if is_pnone (q4get qp n0) then Ok (q4set qp i (Some PNone))
        else if is_pnone (q4get qp n1) then Ok (q4set qp i (Some PNone))
        else
          colliding <- pp_collides s (r_centroid (q4get quads i)) ;;
          Ok (q4set qp i
                (Some (match pos, colliding with
                       | Interior, true | Exterior, false => PEntire
                       | _, _ => PNone
                       end)))
    end.
  (** qt_hazard.rs:48-144 *)
  Definition constrict (alive : nat -> bool) (h : qth) (quads : q4 rect)
      : res (q4 (option qth)) :=
    match q_pres h with
    | PNone => Ok (Q4 None None None None)
    | PEntire => Ok (Q4 (Some h) (Some h) (Some h) (Some h))
    | PPartial ph =>
        a <- shape_arc alive ph ;;
        let s := a_obj a in
        let rels := q4map (fun q => relation_to (p_bbox s) q) quads in
        qp <- match position (georel_eqb Enclosed) (q4list rels) with
              | Some k =>
                  Ok (q4set (Q4 (Some PNone) (Some PNone) (Some PNone) (Some PNone)) k
                            (Some (q_pres h)))
              | None =>
                  let idx := match pa_edges ph with
                             | REAll => edge_indices s
                             | RESome l => l
                             end in
                  qp <- rfold (add_edge_to_q_presences a quads) idx
                              (Q4 None None None None) ;;
                  rfold (resolve_quadrant (ent_position (q_ent h)) s quads) [0; 1; 2; 3] qp
              end ;;
        p0 <- expect (qa qp) ;; p1 <- expect (qb qp) ;;
        p2 <- expect (qc qp) ;; p3 <- expect (qd qp) ;;
        let mk := fun p => qth_new (q_ent h) p (q_act h) in
        Ok (Q4 (mk p0) (mk p1) (mk p2) (mk p3))
    end.

  (** *** qt_hazard_vec.rs *)
  (** qt_hazard.rs:179-187 *)
  Definition pres_u8 (p : presence) : nat :=
    match p with PNone => 0 | PPartial _ => 1 | PEntire => 2 end.
  Definition cmp_bool (a b : bool) : comparison :=
    match a, b with false, true => Lt | true, false => Gt | _, _ => Eq end.
  Definition cmp_then (a b : comparison) : comparison :=
    match a with Eq => b | _ => a end.
  (** qt_hazard_vec.rs:150-160 *)
  Definition order_desc (h1 h2 : qth) : comparison :=
    CompOpp (cmp_then (cmp_bool (q_act h1) (q_act h2))
                      (Nat.compare (pres_u8 (q_pres h1)) (pres_u8 (q_pres h2)))).
  Definition b2z (b : bool) : Z := if b then 1%Z else 0%Z.
  (** qt_hazard_vec.rs:18-23 *)
  Definition hv_new : hvec := Hv [] 0%Z.
  (** qt_hazard_vec.rs:25-44 *)
  Definition hv_add (v : hvec) (h : qth) : hvec :=
    let pos := match bsearch (fun probe => order_desc probe h) (hv_list v) with
               | BFound i | BInsert i => i end in
    Hv (vinsert pos h (hv_list v)) (hv_n v + b2z (q_act h))%Z.
  (** qt_hazard_vec.rs:46-65 *)
  Definition hv_remove (v : hvec) (e : entity) : option qth * hvec :=
    match position (fun ch => ent_eqb (q_ent ch) e) (hv_list v) with
    | Some i =>
        match vremove i (hv_list v) with
        | Some (h, l) => (Some h, Hv l (hv_n v - b2z (q_act h))%Z)
        | None => (None, v)
        end
    | None => (None, v)
    end.
  (** qt_hazard_vec.rs:127-129: a slice, which panics when out of range *)
  Definition active_hazards (v : hvec) : res (list qth) :=
    if (0 <=? hv_n v)%Z && (hv_n v <=? Z.of_nat (length (hv_list v)))%Z
    then Ok (firstn (Z.to_nat (hv_n v)) (hv_list v)) else Panic.
  (** qt_hazard_vec.rs:70-91 *)
  Definition strongest (v : hvec) (irr : list entity) : res (option qth) :=
    if (hv_n v =? 0)%Z then Ok None
    else match irr with
         | [] => h <- expect (nth_error (hv_list v) 0) ;; Ok (Some h)
         | _ => l <- active_hazards v ;;
                Ok (find (fun hz => negb (memb ent_eqb (q_ent hz) irr)) l)
         end.
  (** qt_hazard_vec.rs:93-98 *)
  Definition hv_get (v : hvec) (e : entity) : option qth :=
    find (fun hz => ent_eqb (q_ent hz) e) (filter (fun hz => q_act hz) (hv_list v)).
  (** qt_hazard_vec.rs:100-111 *)
  Definition hv_activate (v : hvec) (e : entity) : bool * hvec :=
    match position (fun ch => ent_eqb (q_ent ch) e) (hv_list v) with
    | Some i =>
        match vremove i (hv_list v) with
        | Some (h, l) => (true, hv_add (Hv l (hv_n v)) (Qh (q_ent h) (q_pres h) true))
        | None => (false, v)
        end
    | None => (false, v)
    end.
  (** qt_hazard_vec.rs:113-125 *)
  Definition hv_deactivate (v : hvec) (e : entity) : bool * hvec :=
    match position (fun ch => ent_eqb (q_ent ch) e) (hv_list v) with
    | Some i =>
        match vremove i (hv_list v) with
        | Some (h, l) => (true, hv_add (Hv l (hv_n v - 1)%Z) (Qh (q_ent h) (q_pres h) false))
        | None => (false, v)
        end
    | None => (false, v)
    end.
  (** qt_hazard_vec.rs:135-148 *)
  Definition hv_is_empty (v : hvec) : bool :=
    match hv_list v with [] => true | _ => false end.
  Definition has_only_entire (v : hvec) : bool :=
    forallb (fun hz => match q_pres hz with PEntire => true | _ => false end) (hv_list v).
End Hazards.
