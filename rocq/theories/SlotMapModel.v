(** The [SlotMap] of the [slotmap] crate (1.0), used for the placed items of a layout
    ([/repo/jagua-rs/src/entities/layout.rs:24], [placed_item.rs:9-12]).  The crate is a
    dependency, not part of /repo; the model follows its published algorithm: a vector
    of versioned slots whose vacant slots form a free list.  Versions are unbounded here
    ([u32] in the crate, wrapping after 2^31 reuses of one slot).  Definitions only. *)
From Coq Require Import List Bool Arith.
From Verif Require Import Base.
Import ListNotations.

Inductive content (V : Type) := Vacant (next_free : nat) | Occupied (v : V).
Arguments Vacant {V} _.
Arguments Occupied {V} _.
Record slot (V : Type) := Slot { sl_ver : nat; sl_con : content V }.
Arguments Slot {V} _ _.
Arguments sl_ver {V} _.
Arguments sl_con {V} _.
Record smap (V : Type) := SM { sm_slots : list (slot V); sm_free : nat; sm_num : nat }.
Arguments SM {V} _ _ _.
Arguments sm_slots {V} _.
Arguments sm_free {V} _.
Arguments sm_num {V} _.
(** [PItemKey]: index and version *)
Definition skey : Type := (nat * nat)%type.
Definition skey_eqb (a b : skey) : bool := Nat.eqb (fst a) (fst b) && Nat.eqb (snd a) (snd b).

Section SlotMap.
  Context {V : Type}.
  (** [SlotMap::with_key]: a sentinel in slot 0 *)
  Definition sm_new : smap V := SM [Slot 0 (Vacant 0)] 1 0.
  (** [version | 1] *)
  Definition occupied_version (v : nat) : nat := if Nat.odd v then v else S v.
  (** [SlotMap::insert] *)
  Definition sm_insert (m : smap V) (v : V) : skey * smap V :=
    match nth_error (sm_slots m) (sm_free m) with
    | Some sl =>
        let ver := occupied_version (sl_ver sl) in
        ((sm_free m, ver),
         SM (vset (sm_free m) (Slot ver (Occupied v)) (sm_slots m))
            match sl_con sl with Vacant n => n | Occupied _ => 0 end
            (S (sm_num m)))
    | None =>
        ((length (sm_slots m), 1),
         SM (sm_slots m ++ [Slot 1 (Occupied v)]) (S (length (sm_slots m))) (S (sm_num m)))
    end.
  (** [SlotMap::get]; a key's version is odd, so a match means occupied *)
  Definition sm_get (m : smap V) (k : skey) : option V :=
    match nth_error (sm_slots m) (fst k) with
    | Some (Slot ver (Occupied v)) => if Nat.eqb ver (snd k) then Some v else None
    | _ => None
    end.
  (** [SlotMap::remove] *)
  Definition sm_remove (m : smap V) (k : skey) : option (V * smap V) :=
    match nth_error (sm_slots m) (fst k) with
    | Some (Slot ver (Occupied v)) =>
        if Nat.eqb ver (snd k)
        then Some (v, SM (vset (fst k) (Slot (S ver) (Vacant (sm_free m))) (sm_slots m))
                         (fst k) (sm_num m - 1))
        else None
    | _ => None
    end.
  Fixpoint sm_iter_from (i : nat) (l : list (slot V)) : list (skey * V) :=
    match l with
    | [] => []
    | Slot ver (Occupied v) :: r => ((i, ver), v) :: sm_iter_from (S i) r
    | _ :: r => sm_iter_from (S i) r
    end.
  (** [SlotMap::iter]: by slot index *)
  Definition sm_iter (m : smap V) : list (skey * V) := sm_iter_from 0 (sm_slots m).
  Definition sm_values (m : smap V) : list V := map snd (sm_iter m).
  (** [SlotMap::is_empty], [len] *)
  Definition sm_is_empty (m : smap V) : bool := Nat.eqb (sm_num m) 0.
  Definition sm_len (m : smap V) : nat := sm_num m.
End SlotMap.
