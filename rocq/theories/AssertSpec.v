(** Vocabulary of the statements about debug builds: histories of a debug engine, and
    what the quadtree's checks ask of the box.  Definitions only. *)
From Coq Require Import List Bool Arith.
From Verif Require Import Base Num GeoModel HazardModel QTModel TransfModel HpgModel CdeModel CdeSpec AssertModel.
Import ListNotations.

Section Spec.
  Context {F : Type} {N : Num F} {D : Type} {ED : EqD D} {BS : BSearch}.
  Local Notation hazard := (hazard F D).
  Local Notation entity := (entity D).
  Local Notation cde := (cde F D).
  Local Notation op := (op F D).
  Local Notation state := (state (F := F) (D := D)).

  (** one operation on an engine compiled with the checks ([step] without them) *)
  Definition step_d (s : state) (o : op) : res state :=
    let '(c, sn) := s in
    match o with
    | OReg h => c' <- cde_register_d c h ;; Ok (c', sn)
    | ODereg e b => c' <- cde_deregister_d c e b ;; Ok (c', sn)
    | OCommit => c' <- cde_commit_d c ;; Ok (c', sn)
    | OFlush => c' <- cde_flush_d c ;; Ok (c', sn)
    | OSnap => '(s', c') <- cde_snapshot_d c ;; Ok (c', sn ++ [s'])
    | ORestore k => s' <- expect (nth_error sn k) ;; c' <- cde_restore_d c s' ;; Ok (c', sn)
    end.
  Definition engine_d (bb : rect F) (statics : list hazard) (depth n_cells : nat) (ops : list op)
      : res state :=
    c <- cde_new_d bb statics depth n_cells ;; rfold step_d ops (c, []).
  Definition ask_d (c : cde) (q : question F D) : res tribool :=
    match q with
    | AskPoly s irr => b <- poly_collides_d c s irr ;; Ok (yn b)
    | AskSurrogate s t irr => b <- surrogate_collides_d c s t irr ;; Ok (yn b)
    | AskBoth s t buf irr => '(b, _) <- surrogate_or_poly_collides_d c s t buf irr ;; Ok (yn b)
    | AskQuery q irr => b <- qt_hit_d c irr q ;; Ok (yn b)
    | AskPoint p e => point_definitely c p e
    | AskEdge e irr => edge_definitely_d c e irr
    | AskCircle k irr => circle_definitely_d c k irr
    end.
  Definition collect_d (c : cde) (k : collection F) (irr buf : list entity) : res (list entity) :=
    match k with
    | CollPoly s => collect_poly_d c s irr buf
    | CollSurrogate s t => collect_surrogate_d c s t irr buf
    | CollWithin q => hazards_within_d c q irr buf
    end.

  (** Subdividing the box down to the given depth produces proper rectangles that fit
      together.  In real arithmetic true of every proper box; in floating point of
      boxes that are not too small for the depth. *)
  Fixpoint divides (depth : nat) (bb : rect F) : Prop :=
    match depth with
    | 0 => True
    | S l => forallb rect_ok (q4list (quadrants bb)) = true /\ quadrants_valid (quadrants bb) = true /\
             forall i, i < 4 -> divides l (q4get (quadrants bb) i)
    end.
  (** the buffer handed to the combined query was made for the same polygon *)
  Definition same_sizes (buf s : poly F) : Prop :=
    match p_surr buf, p_surr s with
    | Some b, Some r => length (s_poles b) = length (s_poles r) /\ length (s_piers b) = length (s_piers r)
    | None, _ => True
    | Some _, None => False
    end.
  Definition sized_question (q : question F D) : Prop :=
    match q with AskBoth s _ buf _ => same_sizes buf s | _ => True end.
End Spec.
