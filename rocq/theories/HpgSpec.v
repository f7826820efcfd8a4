(** Vocabulary of the statements about the hazard proximity grid.  Definitions only. *)
From Coq Require Import Reals List Bool Arith Sorted.
From Verif Require Import Base Num GeoModel HazardModel HpgModel GeoSpec.
Import ListNotations.

(** *** cells of a grid, by index *)
(** two cells (possibly the same) whose rows and columns differ by at most one *)
Definition touching (nc i j : nat) : Prop :=
  Nat.div i nc <= S (Nat.div j nc) /\ Nat.div j nc <= S (Nat.div i nc) /\
  Nat.modulo i nc <= S (Nat.modulo j nc) /\ Nat.modulo j nc <= S (Nat.modulo i nc).
(** the cell lies in the first or last row or column *)
Definition at_rim (nr nc i : nat) : Prop :=
  Nat.div i nc = 0 \/ S (Nat.div i nc) = nr \/ Nat.modulo i nc = 0 \/ S (Nat.modulo i nc) = nc.
(** in a range of rows and a range of columns, bounds included *)
Definition in_box (nc : nat) (rows cols : nat * nat) (i : nat) : Prop :=
  fst rows <= Nat.div i nc <= snd rows /\ fst cols <= Nat.modulo i nc <= snd cols.
(** [reach nr nc open a i]: a walk over touching cells leads from [a] to [i], all cells
    of the walk but the last being [open] *)
Inductive reach (nr nc : nat) (open : nat -> Prop) (a : nat) : nat -> Prop :=
| reach_here : reach nr nc open a a
| reach_step : forall x y, reach nr nc open a x -> open x -> y < nr * nc -> touching nc x y -> reach nr nc open a y.

Section Fill.
  Context {F : Type} {N : Num F} {BS : BSearch}.
  (** the loop of hazard_proximity_grid.rs:87-104 with the verdicts given: pop a cell,
      report its position; returns the visited cells in order *)
  Fixpoint traverse {T} (fuel : nat) (v : nat -> geopos) (g : grid F T) (b : bfill) : res (list nat * bfill) :=
    '(o, b1) <- bf_pop b ;;
    match o with
    | None => Ok ([], b1)
    | Some i =>
        match fuel with
        | 0 => Panic
        | S f => b2 <- bf_report b1 i (v i) g ;; '(l, b3) <- traverse f v g b2 ;; Ok (i :: l, b3)
        end
    end.
  (** a fresh fill on given row and column ranges *)
  Definition fill_start {T} (g : grid F T) (rows cols : nat * nat) : res bfill :=
    bf_init_queue (BF (repeat NotQueued (n_rows g * n_cols g)) rows cols [] 0 false) g.
End Fill.

(** *** proximity of hazards, over the reals *)
From Verif Require Import QTModel CdeModel CdeSpec PlaceSpec.
Local Open Scope R_scope.
(** distance from a point to a closed disk *)
Definition gap (k : rcircle) (p : rpoint) : R := Rmax 0 (edist p (ccen k) - crad k).
(** the disks that stand for a shape in the proximity grid *)
Definition poles_of (s : poly R) : list rcircle :=
  match p_surr s with Some u => s_poles u | None => [] end.
(** the surrogate is present, has a pole, and its bounding circle contains all poles *)
Definition probed (s : poly R) : Prop :=
  exists u, p_surr s = Some u /\ s_poles u <> [] /\ (forall k, In k (s_poles u) -> 0 <= crad k) /\
    0 <= crad (s_bcircle u) /\ forall k p, In k (s_poles u) -> in_disk k p -> in_disk (s_bcircle u) p.
(** the polygon contains its poles *)
Definition poles_inside (s : poly R) : Prop := forall k p, In k (poles_of s) -> in_disk k p -> region (p_pts s) p.

Section Prox.
  Context {D : Type}.
  Local Notation fact := (CdeSpec.fact R D).
  (** hazards the proximity grid can deal with: items with a surrogate *)
  Definition probed_facts (A : list fact) : Prop :=
    forall f, In f A -> ent_position (f_ent f) = Interior /\ f_act f = true /\ probed (f_poly f).
  (** The value stored in a cell belongs to a hazard: to a static one, to a registered one
      (then it is the distance to one of its poles), or to one whose removal is pending. *)
  Definition owned_cell (unc : list (entity D)) (A : list fact) (c : cell R D) : Prop :=
    c_uni c = c_stat c \/ In (snd (c_uni c)) unc \/
    exists f k, In f A /\ f_ent f = snd (c_uni c) /\ In k (poles_of (f_poly f)) /\ fst (c_uni c) = gap k (c_cen c).
  (** no registered hazard is closer than the value stored *)
  Definition low_cell (A : list fact) (c : cell R D) : Prop :=
    fst (c_uni c) <= fst (c_stat c) /\
    forall f k, In f A -> In k (poles_of (f_poly f)) -> fst (c_uni c) <= gap k (c_cen c).
  (** the value is the minimum of the static value and the distances to the poles *)
  Definition exact_cell (A : list fact) (c : cell R D) : Prop := owned_cell [] A c /\ low_cell A c.
End Prox.

(** *** static proximities *)
Section Static.
  Context {D : Type}.
  (** [(d, e)] is the distance to the closest of the hazards selected by [P], at most [M] *)
  Definition nearest (M : R) (sts : list (hazard R D)) (P : hazard R D -> Prop) (cen : rpoint) (d : R) : Prop :=
    d <= M /\ (d = M \/ exists h, In h sts /\ P h /\ distance_to (blocked (fact_of h)) cen d) /\
    (forall h x, In h sts -> P h -> blocked (fact_of h) x -> d <= edist cen x).
  (** the static part of a cell: distances to the bin exterior and holes, and to the
      quality zones of each quality; centre and radius of the square *)
  Record static_cell (M : R) (sts : list (hazard R D)) (c : cell R D) : Prop := {
    sc_cen : c_cen c = Pt ((x_min (c_bbox' c) + x_max (c_bbox' c)) / 2) ((y_min (c_bbox' c) + y_max (c_bbox' c)) / 2);
    sc_rad : forall p, in_rect (c_bbox' c) p -> edist p (c_cen c) <= c_rad c;
    sc_uni : nearest M sts (fun h => ent_universal (h_ent h) = true) (c_cen c) (fst (c_stat c));
    sc_len : length (c_qz c) = N_QUALITIES;
    sc_qz : forall q z, nth_error (c_qz c) q = Some z ->
      nearest M sts (fun h => exists i, h_ent h = InferiorQualityZone q i) (c_cen c) z }.
End Static.

(** *** grids in a history *)
Section Hist.
  Context {D : Type}.
  (** what can be a static hazard: the bin exterior, a hole or a quality zone *)
  Definition static_hazard (h : hazard R D) : Prop := sound_poly (a_obj (h_shape h)) /\ p_pts (a_obj (h_shape h)) <> [] /\
    match h_ent h with PlacedItem _ _ => False | InferiorQualityZone q _ => (q < N_QUALITIES)%nat | _ => True end.
  Definition sound_statics (sts : list (hazard R D)) : Prop := Forall (fun h => sound_poly (a_obj (h_shape h))) sts.
  (** strictly inside the box; no hazard of the list reaches there *)
  Definition open_box (bb : rect R) (p : rpoint) : Prop := x_min bb < px p < x_max bb /\ y_min bb < py p < y_max bb.
  Definition sub_box (rr bb : rect R) : Prop := x_min bb <= x_min rr /\ y_min bb <= y_min rr /\ x_max rr <= x_max bb /\ y_max rr <= y_max bb.
  Definition clear_box (bb : rect R) (hs : list (hazard R D)) : Prop := forall h p, In h hs -> open_box bb p -> ~ blocked (fact_of h) p.
  (** the only hazard for every item is the exterior of a bin that is the rectangle [rr] *)
  Definition oblong_bin (rr : rect R) (sts : list (hazard R D)) : Prop := exists z, filter (fun h => ent_universal (h_ent h)) sts = [z] /\
    h_ent z = BinExterior /\ p_bbox (a_obj (h_shape z)) = rr /\ clear_box rr [z].
  (** hazards an item with base quality [q] need not avoid: quality zones of at least that quality *)
  Definition relevant_irr (q : option nat) (irr : list (entity D)) : Prop :=
    forall e, In e irr -> exists k z i, q = Some k /\ e = InferiorQualityZone z i /\ (k <= z)%nat.
  (** [P] holds for every cell of the grid *)
  Definition every_cell {T} (P : T -> Prop) (g : grid R T) : Prop := forall c, In (Some c) (g_cells g) -> P c.
  (** what the proximity grid needs of a registered hazard *)
  Definition grid_hazard (h : hazard R D) : Prop :=
    ent_position (h_ent h) = Interior /\ ent_universal (h_ent h) = true /\ h_active h = true /\ probed (a_obj (h_shape h)) /\
    x_min (p_bbox (a_obj (h_shape h))) <= x_max (p_bbox (a_obj (h_shape h))) /\
    y_min (p_bbox (a_obj (h_shape h))) <= y_max (p_bbox (a_obj (h_shape h))).
  Definition grid_op (o : op R D) : Prop := match o with OReg h => grid_hazard h | _ => True end.
  (** a deferred deregistration has happened since the grid was last made consistent *)
  Fixpoint pending (ops : list (op R D)) (d : bool) : bool :=
    match ops with
    | [] => d
    | ODereg _ false :: r => pending r true
    | (OReg _ | ODereg _ true) :: r => pending r d
    | (OFlush | OCommit | OSnap | ORestore _) :: r => pending r false
    end.
  (** no deregistration takes effect at once while a deferred one is pending *)
  Fixpoint tidy (ops : list (op R D)) (d : bool) : Prop :=
    match ops with
    | [] => True
    | ODereg _ true :: r => d = false /\ tidy r d
    | ODereg _ false :: r => tidy r true
    | OReg _ :: r => tidy r d
    | (OFlush | OCommit | OSnap | ORestore _) :: r => tidy r false
    end.
  (** every point of the box lies in a cell of the grid *)
  Definition covered (bb : rect R) (g : grid R (cell R D)) : Prop :=
    forall p, in_rect bb p -> exists c, In (Some c) (g_cells g) /\ in_rect (c_bbox' c) p.
  (** the poles of registered hazards have their centres in the box *)
  Definition centred_op (bb : rect R) (o : op R D) : Prop :=
    match o with OReg h => forall k, In k (poles_of (a_obj (h_shape h))) -> in_rect bb (ccen k) | _ => True end.
  (** no cell is farther from a hazard than from one of its poles: registering the
      hazard once more changes nothing *)
  Definition settled (s : poly R) (g : hpg R D) : Prop :=
    every_cell (fun c => forall k, In k (poles_of s) -> fst (c_uni c) <= gap k (c_cen c)) (hg_grid g).
End Hist.

Section Settles.
  Context {N : Num R} {D : Type} {ED : EqD D} {BS : BSearch}.
  (** along the history, every registration reaches all cells it should
      (hazard_proximity_grid.rs:106-109, a debug assertion) *)
  Fixpoint settles (s : @state R D) (ops : list (op R D)) : Prop :=
    match ops with
    | [] => True
    | o :: r => forall s', step s o = Ok s' ->
        match o with
        | OReg h => forall g, cd_hpg (fst s') = Some g -> settled (a_obj (h_shape h)) g
        | _ => True
        end /\ settles s' r
    end.
End Settles.

(** *** a single cell *)
(** A cell is told about a hazard; a hazard goes, with effect on the cell at once or
    when the cell is next flushed (hazard_proximity_grid.rs:112-142, on one cell). *)
Inductive cell_op (D : Type) := CAdd (h : hazard R D) | CDrop (e : entity D) (now : bool) | CFlush.
Arguments CAdd {D} _.
Arguments CDrop {D} _ _.
Arguments CFlush {D}.
Section CellHist.
  Context {N : Num R} {D : Type} {ED : EqD D}.
  Definition cell_step (s : cell R D * list (hazard R D) * list (entity D)) (o : cell_op D)
      : res (cell R D * list (hazard R D) * list (entity D)) :=
    let '(c, hs, unc) := s in
    let without e := filter (fun h => negb (ent_eqb (h_ent h) e)) hs in
    match o with
    | CAdd h => '(c', _) <- cell_register_hazard c h ;; Ok (c', hs ++ [h], unc)
    | CDrop e true => c' <- cell_deregister [e] (without e) c ;; Ok (c', without e, unc)
    | CDrop e false => Ok (c, without e, unc ++ [e])
    | CFlush => c' <- cell_deregister unc hs c ;; Ok (c', hs, [])
    end.
  (** the hazards told and not gone *)
  Definition told (l : list (hazard R D)) (o : cell_op D) : list (hazard R D) :=
    match o with
    | CAdd h => l ++ [h]
    | CDrop e _ => filter (fun h => negb (ent_eqb (h_ent h) e)) l
    | CFlush => l
    end.
  Definition cell_op_ok (o : cell_op D) : Prop :=
    match o with
    | CAdd h => ent_position (h_ent h) = Interior /\ h_active h = true /\ probed (a_obj (h_shape h))
    | _ => True
    end.
End CellHist.
