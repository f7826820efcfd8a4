(** Quadtree nodes: [/repo/jagua-rs/src/collision_detection/quadtree/qt_node.rs].
    Definitions only. *)
From Coq Require Import List Bool Arith ZArith.
From Verif Require Import Base Num GeoModel HazardModel.
Import ListNotations.

(** qt_node.rs:13-22 *)
Inductive node (F D : Type) :=
  Node (level : nat) (bbox : rect F) (hz : hvec F D) (children : option (q4 (node F D))).
Arguments Node {F D} _ _ _ _.

Section QT.
  Context {F : Type} {N : Num F} {D : Type} {ED : EqD D} {BS : BSearch}.
  Local Notation rect := (rect F).
  Local Notation point := (point F).
  Local Notation entity := (entity D).
  Local Notation qth := (qth F D).
  Local Notation hvec := (hvec F D).
  Local Notation query := (query F).
  Local Notation node := (node F D).

  Definition n_level (n : node) : nat := let '(Node l _ _ _) := n in l.
  Definition n_bbox (n : node) : rect := let '(Node _ b _ _) := n in b.
  Definition n_haz (n : node) : hvec := let '(Node _ _ h _) := n in h.
  Definition n_children (n : node) : option (q4 node) := let '(Node _ _ _ c) := n in c.

  (** qt_node.rs:25-32 *)
  Definition node_new (level : nat) (bbox : rect) : node := Node level bbox hv_new None.
  (** qt_node.rs:102-108 *)
  Definition generate_children (level : nat) (bbox : rect) : option (q4 node) :=
    match level with
    | 0 => None
    | S l => Some (q4map (node_new l) (quadrants bbox))
    end.

  Definition is_partial (h : qth) : bool :=
    match q_pres h with PPartial _ => true | _ => false end.

  Definition reg_opt (reg : node -> qth -> res node) (c : node) (o : option qth) : res node :=
    match o with Some h => reg c h | None => Ok c end.
  (** qt_node.rs:35-46 *)
  Definition register_to_children (alive : nat -> bool) (reg : node -> qth -> res node)
      (ch : option (q4 node)) (h : qth) : res (option (q4 node)) :=
    match ch with
    | None => Ok None
    | Some c =>
        cs <- constrict alive h (q4map n_bbox c) ;;
        c0 <- reg_opt reg (qa c) (qa cs) ;;
        c1 <- reg_opt reg (qb c) (qb cs) ;;
        c2 <- reg_opt reg (qc c) (qc cs) ;;
        c3 <- reg_opt reg (qd c) (qd cs) ;;
        Ok (Some (Q4 c0 c1 c2 c3))
    end.
  (** qt_node.rs:34-62.  [fuel] bounds the recursion depth; it is the level of the
      node, which drops by one at each call, so running out of fuel (reported as a
      panic) does not happen. *)
  Fixpoint node_register (alive : nat -> bool) (fuel : nat) (n : node) (h : qth) : res node :=
    let '(Node lvl bb hv ch) := n in
    let rec := match fuel with
               | 0 => fun _ _ => Panic
               | S f => node_register alive f
               end in
    ch1 <- (if negb (is_some ch) && Nat.ltb 0 lvl && is_partial h
            then rfold (register_to_children alive rec) (hv_list hv) (generate_children lvl bb)
            else Ok ch) ;;
    ch2 <- register_to_children alive rec ch1 h ;;
    Ok (Node lvl bb (hv_add hv h) ch2).

  (** qt_node.rs:64-80 *)
  Fixpoint node_deregister (n : node) (e : entity) : node :=
    let '(Node lvl bb hv ch) := n in
    let '(removed, hv') := hv_remove hv e in
    match removed, ch with
    | Some _, Some (Q4 c0 c1 c2 c3) =>
        if hv_is_empty hv' || has_only_entire hv' then Node lvl bb hv' None
        else Node lvl bb hv'
               (Some (Q4 (node_deregister c0 e) (node_deregister c1 e)
                         (node_deregister c2 e) (node_deregister c3 e)))
    | _, _ => Node lvl bb hv' ch
    end.
  (** qt_node.rs:82-89 *)
  Fixpoint node_activate (n : node) (e : entity) : node :=
    let '(Node lvl bb hv ch) := n in
    let '(modified, hv') := hv_activate hv e in
    match modified, ch with
    | true, Some (Q4 c0 c1 c2 c3) =>
        Node lvl bb hv' (Some (Q4 (node_activate c0 e) (node_activate c1 e)
                                  (node_activate c2 e) (node_activate c3 e)))
    | _, _ => Node lvl bb hv' ch
    end.
  (** qt_node.rs:91-100 *)
  Fixpoint node_deactivate (n : node) (e : entity) : node :=
    let '(Node lvl bb hv ch) := n in
    let '(modified, hv') := hv_deactivate hv e in
    match modified, ch with
    | true, Some (Q4 c0 c1 c2 c3) =>
        Node lvl bb hv' (Some (Q4 (node_deactivate c0 e) (node_deactivate c1 e)
                                  (node_deactivate c2 e) (node_deactivate c3 e)))
    | _, _ => Node lvl bb hv' ch
    end.

  (** [.map(..).find(|x| x.is_some()).flatten()] on lazily evaluated entries *)
  Fixpoint first_some {A} (l : list (res (option A))) : res (option A) :=
    match l with
    | [] => Ok None
    | x :: r => o <- x ;; match o with Some a => Ok (Some a) | None => first_some r end
    end.

  (** qt_node.rs:129-175 *)
  Fixpoint node_collides (alive : nat -> bool) (n : node) (q : query) (irr : list entity)
      : res (option entity) :=
    let '(Node _ bb hv ch) := n in
    s <- strongest hv irr ;;
    match s with
    | None => Ok None
    | Some sh =>
        if qy_rect q bb then
          match q_pres sh with
          | PNone => Ok None
          | PEntire => Ok (Some (q_ent sh))
          | PPartial _ =>
              match ch with
              | Some (Q4 c0 c1 c2 c3) =>
                  first_some [node_collides alive c0 q irr; node_collides alive c1 q irr;
                              node_collides alive c2 q irr; node_collides alive c3 q irr]
              | None =>
                  act <- active_hazards hv ;;
                  o <- rfind (fun hz =>
                         match q_pres hz with
                         | PNone => Ok false
                         | PEntire => Panic
                         | PPartial p => partial_collides alive q p
                         end)
                       (filter (fun hz => negb (memb ent_eqb (q_ent hz) irr)) act) ;;
                  Ok (option_map (fun hz => q_ent hz) o)
              end
          end
        else Ok None
    end.

  (** qt_node.rs:179-219 *)
  Fixpoint node_collect (alive : nat -> bool) (n : node) (q : query) (det : list entity)
      : res (list entity) :=
    let '(Node _ bb hv ch) := n in
    s <- strongest hv det ;;
    match s with
    | None => Ok det
    | Some sh =>
        if qy_rect q bb then
          match q_pres sh with
          | PNone => Ok det
          | PEntire => Ok (det ++ [q_ent sh])
          | PPartial _ =>
              match ch with
              | Some (Q4 c0 c1 c2 c3) =>
                  d0 <- node_collect alive c0 q det ;;
                  d1 <- node_collect alive c1 q d0 ;;
                  d2 <- node_collect alive c2 q d1 ;;
                  node_collect alive c3 q d2
              | None =>
                  act <- active_hazards hv ;;
                  rfold (fun d hz =>
                    if memb ent_eqb (q_ent hz) d then Ok d
                    else match q_pres hz with
                         | PNone => Ok d
                         | PEntire => Panic
                         | PPartial p =>
                             b <- partial_collides alive q p ;;
                             Ok (if b then d ++ [q_ent hz] else d)
                         end) act det
              end
          end
        else Ok det
    end.

  (** the [for i in 0..4] loops of qt_node.rs:236-246 and 268-280; entries after
      the first [True] are not evaluated *)
  Fixpoint tri_loop (l : list (res tribool)) (acc : tribool) : res tribool :=
    match l with
    | [] => Ok acc
    | x :: r => t <- x ;; match t with
                          | TTrue => Ok TTrue
                          | TIndet => tri_loop r TIndet
                          | TFalse => tri_loop r acc
                          end
    end.

  (** qt_node.rs:225-252; the query only needs [CollidesWith<AARectangle>] *)
  Fixpoint node_definitely (n : node) (qr : rect -> bool) (irr : list entity) : res tribool :=
    let '(Node _ bb hv ch) := n in
    s <- strongest hv irr ;;
    match s with
    | None => Ok TFalse
    | Some h =>
        if qr bb then
          match q_pres h with
          | PNone => Ok TFalse
          | PEntire => Ok TTrue
          | PPartial _ =>
              match ch with
              | Some (Q4 c0 c1 c2 c3) =>
                  tri_loop [node_definitely c0 qr irr; node_definitely c1 qr irr;
                            node_definitely c2 qr irr; node_definitely c3 qr irr] TFalse
              | None => Ok TIndet
              end
          end
        else Ok TFalse
    end.

  (** qt_node.rs:258-288 *)
  Fixpoint node_definitely_with (n : node) (qr : rect -> bool) (e : entity) : res tribool :=
    let '(Node _ bb hv ch) := n in
    match hv_get hv e with
    | None => Ok TFalse
    | Some h =>
        if qr bb then
          match q_pres h with
          | PNone => Ok TFalse
          | PEntire => Ok TTrue
          | PPartial _ =>
              match ch with
              | Some (Q4 c0 c1 c2 c3) =>
                  tri_loop [node_definitely_with c0 qr e; node_definitely_with c1 qr e;
                            node_definitely_with c2 qr e; node_definitely_with c3 qr e] TFalse
              | None => Ok TIndet
              end
          end
        else Ok TFalse
    end.
End QT.
