(** Simplification of polygons: [/repo/jagua-rs/src/util/polygon_simplification.rs].
    Definitions only.  [NaN] (the [expect]s of lines 78, 160, 220) is not modelled; the
    log messages of lines 158-162 and 175-185 are left out. *)
From Coq Require Import List Bool Arith.
From Verif Require Import Base Num GeoModel TransfModel PolyModel.
Import ListNotations.

(** polygon_simplification.rs:27-32 *)
Inductive simpl_mode := Inflate | Deflate.
(** polygon_simplification.rs:50-52 *)
Record corner := Cn { c_prev : nat; c_mid : nat; c_next : nat }.
(** polygon_simplification.rs:54-57 *)
Definition c_flip (c : corner) : corner := Cn (c_next c) (c_mid c) (c_prev c).
(** polygon_simplification.rs:43-48 *)
Inductive candidate :=
| Concave (c : corner)
| ConvexConvex (c1 c2 : corner)
| Collinear (c : corner).
(** polygon_simplification.rs:64-69 *)
Inductive corner_type := TConcave | TConvex | TCollinear.

(** [Vec::remove] and [Vec::insert] *)
Fixpoint remove_at {A} (i : nat) (l : list A) : res (list A) :=
  match l, i with
  | [], _ => Panic
  | _ :: r, 0 => Ok r
  | x :: r, S i => r' <- remove_at i r ;; Ok (x :: r')
  end.
Fixpoint insert_at {A} (i : nat) (a : A) (l : list A) : res (list A) :=
  match i, l with
  | 0, _ => Ok (a :: l)
  | S i, x :: r => r' <- insert_at i a r ;; Ok (x :: r')
  | S _, [] => Panic
  end.

Section Simpl.
  Context {F : Type} {N : Num F}.
  Local Open Scope num_scope.
  Local Notation point := (point F).
  Local Notation edge := (edge F).
  Local Notation poly := (poly F).

  Definition vertex (l : list point) (i : nat) : res point := expect (nth_error l i).
  (** polygon_simplification.rs:72-88 *)
  Definition corner_type_of (p1 p2 p3 : point) : corner_type :=
    let cross_prod := (px p2 - px p1) * (py p3 - py p1) - (py p2 - py p1) * (px p3 - px p1) in
    if cross_prod <? f0 then TConcave else if cross_prod =? f0 then TCollinear else TConvex.
  (** polygon_simplification.rs:59-61 and 72 *)
  Definition type_at (l : list point) (c : corner) : res corner_type :=
    p1 <- vertex l (c_prev c) ;; p2 <- vertex l (c_mid c) ;; p3 <- vertex l (c_next c) ;;
    Ok (corner_type_of p1 p2 p3).
  (** polygon_simplification.rs:108-121 *)
  Definition corners_of (mode : simpl_mode) (n : nat) : list corner :=
    let cs := map (fun i => Cn (if Nat.eqb i 0 then Nat.pred n else Nat.pred i) i (if Nat.eqb (S i) n then 0%nat else S i)) (seq 0 n) in
    match mode with Inflate => cs | Deflate => map c_flip (rev cs) end.
  (** polygon_simplification.rs:129-142 *)
  Fixpoint candidates_from (l : list point) (prev : corner) (prev_t : corner_type) (cs : list corner)
    : res (list candidate) :=
    match cs with
    | [] => Ok []
    | c :: r =>
        t <- type_at l c ;;
        rest <- candidates_from l c t r ;;
        Ok (match t, prev_t with
            | TConcave, _ => Concave c :: rest
            | TCollinear, _ => Collinear c :: rest
            | TConvex, TConvex => ConvexConvex prev c :: rest
            | TConvex, _ => rest
            end)
    end.
  (** polygon_simplification.rs:123-142 *)
  Definition candidates_of (mode : simpl_mode) (l : list point) : res (list candidate) :=
    let cs := corners_of mode (length l) in
    prev <- expect (hd_error (rev cs)) ;;
    prev_t <- type_at l prev ;;
    candidates_from l prev prev_t cs.

  (** polygon_simplification.rs:296-326 *)
  Definition intersection_in_front (l1 l2 : edge) : option point :=
    let x1 := px (es l1) in let y1 := py (es l1) in
    let x2 := px (ee l1) in let y2 := py (ee l1) in
    let x3 := px (es l2) in let y3 := py (es l2) in
    let x4 := px (ee l2) in let y4 := py (ee l2) in
    let t_nom := (x2 - x4) * (y4 - y3) - (y2 - y4) * (x4 - x3) in
    let t_denom := (x2 - x1) * (y4 - y3) - (y2 - y1) * (x4 - x3) in
    let u_nom := (x2 - x4) * (y2 - y1) - (y2 - y4) * (x2 - x1) in
    let u_denom := (x2 - x1) * (y4 - y3) - (y2 - y1) * (x4 - x3) in
    let t := if negb (t_denom =? f0) then t_nom / t_denom else f0 in
    let u := if negb (u_denom =? f0) then u_nom / u_denom else f0 in
    if (t <? f0) && (u <? f0) then Some (Pt (x2 + t * (x1 - x2)) (y2 + t * (y1 - y2))) else None.
  (** polygon_simplification.rs:283-294; [None] is [Err(InvalidCandidate)] *)
  Definition replacing_vertex (l : list point) (c1 c2 : corner) : res (option point) :=
    _ <- rassert (Nat.eqb (c_next c1) (c_mid c2)) ;;
    _ <- rassert (Nat.eqb (c_mid c1) (c_prev c2)) ;;
    a0 <- vertex l (c_prev c1) ;; a <- vertex l (c_mid c1) ;;
    ep <- edge_new a0 a ;;
    b0 <- vertex l (c_next c2) ;; b <- vertex l (c_mid c2) ;;
    en <- edge_new b0 b ;;
    Ok (intersection_in_front ep en).

  Definition tri_area (p0 p1 p2 : point) : F :=
    fabs ((px p0 * py p1 + px p1 * py p2 + px p2 * py p0 - px p0 * py p2 - px p1 * py p0 - px p2 * py p1) / f2).
  (** polygon_simplification.rs:190-221; [None] is [Err(InvalidCandidate)] *)
  Definition area_delta (l : list point) (c : candidate) : res (option F) :=
    match c with
    | Collinear _ => Ok (Some f0)
    | Concave c =>
        p0 <- vertex l (c_prev c) ;; p1 <- vertex l (c_mid c) ;; p2 <- vertex l (c_next c) ;;
        Ok (Some (tri_area p0 p1 p2))
    | ConvexConvex c1 c2 =>
        v <- replacing_vertex l c1 c2 ;;
        match v with
        | None => Ok None
        | Some p1 =>
            p0 <- vertex l (c_mid c1) ;; p2 <- vertex l (c_mid c2) ;;
            Ok (Some (tri_area p0 p1 p2))
        end
    end.
  (** [sorted_by_cached_key] (stable) with [INFINITY] for invalid candidates; finite
      keys are taken to be below it *)
  Definition key_lt (a b : option F) : bool :=
    match a, b with
    | Some x, Some y => x <? y
    | Some _, None => true
    | None, _ => false
    end.
  Fixpoint insert_key {A} (x : option F * A) (l : list (option F * A)) : list (option F * A) :=
    match l with
    | [] => [x]
    | y :: r => if key_lt (fst x) (fst y) then x :: l else y :: insert_key x r
    end.
  Definition sort_keys {A} (l : list (option F * A)) : list (option F * A) :=
    fold_left (fun acc x => insert_key x acc) l [].

  (** [affected_points.contains(p)] *)
  Definition affected (ps : list point) (p : point) : bool := existsb (fun q => pt_eq q p) ps.
  (** polygon_simplification.rs:257-263 with the filters and [all] of lines 233-236 and
      247-250: some edge with no affected end collides with one of the new edges *)
  Definition some_edge_hits (l : list point) (ps : list point) (news : list edge) : res bool :=
    rany (fun i =>
      a <- vertex l i ;; b <- vertex l (if Nat.eqb (S i) (length l) then 0%nat else S i) ;;
      e <- edge_new a b ;;
      Ok (negb (affected ps (es e)) && negb (affected ps (ee e)) && existsb (fun n => ee_collides e n) news))
      (seq 0 (length l)).
  (** polygon_simplification.rs:223-255 *)
  Definition candidate_is_valid (l : list point) (c : candidate) : res bool :=
    match c with
    | Collinear _ => Ok true
    | Concave c =>
        p0 <- vertex l (c_prev c) ;; p2 <- vertex l (c_next c) ;;
        ne <- edge_new p0 p2 ;;
        p1 <- vertex l (c_mid c) ;;
        rmap negb (some_edge_hits l [p0; p1; p2] [ne])
    | ConvexConvex c1 c2 =>
        v <- replacing_vertex l c1 c2 ;;
        match v with
        | None => Ok false
        | Some v =>
            a0 <- vertex l (c_prev c1) ;; n1 <- edge_new a0 v ;;
            b0 <- vertex l (c_next c2) ;; n2 <- edge_new v b0 ;;
            a <- vertex l (c_mid c1) ;; b <- vertex l (c_mid c2) ;;
            rmap negb (some_edge_hits l [a; a0; b; b0] [n1; n2])
        end
    end.
  (** polygon_simplification.rs:265-281 *)
  Definition execute_candidate (l : list point) (c : candidate) : res (list point) :=
    match c with
    | Collinear c | Concave c => remove_at (c_mid c) l
    | ConvexConvex c1 c2 =>
        v <- replacing_vertex l c1 c2 ;; v <- expect v ;;
        l1 <- remove_at (c_mid c1) l ;;
        let other := if Nat.ltb (c_mid c1) (c_mid c2) then Nat.pred (c_mid c2) else c_mid c2 in
        l2 <- remove_at other l1 ;;
        insert_at other v l2
    end.
  (** polygon_simplification.rs:145-151 *)
  Definition best_candidate (mode : simpl_mode) (l : list point) : res (option candidate) :=
    cs <- candidates_of mode l ;;
    keyed <- rmapM (fun c => k <- area_delta l c ;; Ok (k, c)) cs ;;
    best <- rfind (fun kc => candidate_is_valid l (snd kc)) (sort_keys keyed) ;;
    Ok (option_map snd best).
  (** polygon_simplification.rs:100-170 *)
  Fixpoint simpl_rounds (n : nat) (mode : simpl_mode) (original max_delta : F) (l : list point) : res (list point) :=
    match n with
    | 0 => Ok l
    | S n =>
        if Nat.ltb (length l) 4 then Ok l
        else
          best <- best_candidate mode l ;;
          match best with
          | None => Ok l
          | Some c =>
              l' <- execute_candidate l c ;;
              if fabs (calculate_area l' - original) / original <=? max_delta
              then simpl_rounds n mode original max_delta l'
              else Ok l
          end
    end.
  (** polygon_simplification.rs:91-188 *)
  Definition simplify_shape (s : poly) (mode : simpl_mode) (max_delta : F) : res poly :=
    l <- simpl_rounds (n_points s) mode (p_area s) max_delta (p_pts s) ;; poly_new l.
End Simpl.
