(** Basic vocabulary shared by all model files: panics as values, and the few
    [std] / [itertools] / [indexmap] list operations the code relies on. *)
From Coq Require Import List Bool Arith ZArith Lia.
Import ListNotations.

(** A Rust computation either returns a value or panics
    ([panic!], [unreachable!], [expect]/[unwrap] on nothing, out-of-range index,
    failed [assert!]). *)
Inductive res (A : Type) : Type :=
| Ok (a : A)
| Panic.
Arguments Ok {A} a.
Arguments Panic {A}.

Definition rbind {A B} (x : res A) (f : A -> res B) : res B :=
  match x with Ok a => f a | Panic => Panic end.

Notation "x <- e ;; f" := (rbind e (fun x => f))
  (at level 100, e at next level, right associativity).
Notation "' p <- e ;; f" := (rbind e (fun p => f))
  (at level 100, p pattern, e at next level, right associativity).

Definition rmap {A B} (f : A -> B) (x : res A) : res B :=
  match x with Ok a => Ok (f a) | Panic => Panic end.

(** [Option::expect] / [unwrap]. *)
Definition expect {A} (o : option A) : res A :=
  match o with Some a => Ok a | None => Panic end.

(** [assert!]. *)
Definition rassert (b : bool) : res unit := if b then Ok tt else Panic.

(** [Iterator::any] with a closure that may panic; it stops at the first hit. *)
Fixpoint rany {A} (f : A -> res bool) (l : list A) : res bool :=
  match l with
  | [] => Ok false
  | x :: r => b <- f x ;; if b then Ok true else rany f r
  end.

(** [Iterator::find] with a closure that may panic. *)
Fixpoint rfind {A} (f : A -> res bool) (l : list A) : res (option A) :=
  match l with
  | [] => Ok None
  | x :: r => b <- f x ;; if b then Ok (Some x) else rfind f r
  end.

(** [for x in l { acc = f(acc, x) }] with a body that may panic. *)
Fixpoint rfold {A B} (f : A -> B -> res A) (l : list B) (a : A) : res A :=
  match l with
  | [] => Ok a
  | x :: r => a' <- f a x ;; rfold f r a'
  end.

(** [iter().map(f).collect()] with a closure that may panic. *)
Fixpoint rmapM {A B} (f : A -> res B) (l : list A) : res (list B) :=
  match l with
  | [] => Ok []
  | x :: r => y <- f x ;; ys <- rmapM f r ;; Ok (y :: ys)
  end.

(** [iter().position(f)]. *)
Fixpoint position {A} (f : A -> bool) (l : list A) : option nat :=
  match l with
  | [] => None
  | x :: r => if f x then Some 0 else option_map S (position f r)
  end.

(** [Vec::remove(i)] on an index that is in range: the element and the rest. *)
Fixpoint vremove {A} (i : nat) (l : list A) : option (A * list A) :=
  match l, i with
  | [], _ => None
  | x :: r, O => Some (x, r)
  | x :: r, S i' =>
      match vremove i' r with Some (y, r') => Some (y, x :: r') | None => None end
  end.

(** [Vec::insert(i, x)] (for [i <= len]). *)
Definition vinsert {A} (i : nat) (x : A) (l : list A) : list A :=
  firstn i l ++ x :: skipn i l.

(** [v[i] = x] on an index in range (no effect otherwise). *)
Fixpoint vset {A} (i : nat) (x : A) (l : list A) : list A :=
  match l, i with
  | [], _ => []
  | _ :: r, O => x :: r
  | y :: r, S i' => y :: vset i' x r
  end.

(** [Vec::swap_remove(i)]: returns element [i]; the last element takes its
    place. *)
Definition swap_remove {A} (i : nat) (l : list A) : option (A * list A) :=
  match nth_error l i with
  | None => None
  | Some x =>
      match rev l with
      | [] => None
      | last :: _ =>
          let l' := removelast l in
          Some (x, if Nat.eqb i (length l') then l' else vset i last l')
      end
  end.

(** [IndexSet::swap_remove(&x)]: whether [x] was present, and the new set. *)
Definition iset_swap_remove {A} (eqb : A -> A -> bool) (x : A) (l : list A)
  : bool * list A :=
  match position (eqb x) l with
  | None => (false, l)
  | Some i => match swap_remove i l with
              | Some (_, l') => (true, l')
              | None => (false, l)
              end
  end.

(** [collect::<IndexSet<_>>()]: first occurrences in order. *)
Fixpoint iset_collect_from {A} (eqb : A -> A -> bool) (seen l : list A) : list A :=
  match l with
  | [] => []
  | x :: r => if existsb (eqb x) seen then iset_collect_from eqb seen r
              else x :: iset_collect_from eqb (seen ++ [x]) r
  end.
Definition iset_collect {A} (eqb : A -> A -> bool) (l : list A) : list A :=
  iset_collect_from eqb [] l.

(** [slice.contains(&x)]. *)
Definition memb {A} (eqb : A -> A -> bool) (x : A) (l : list A) : bool :=
  existsb (eqb x) l.

Definition is_some {A} (o : option A) : bool :=
  match o with Some _ => true | None => false end.

(** [filter_map] / [flatten]. *)
Fixpoint omap {A B} (f : A -> option B) (l : list A) : list B :=
  match l with
  | [] => []
  | x :: r => match f x with Some y => y :: omap f r | None => omap f r end
  end.

(** The [almost] three-valued logic of the [tribool] crate. *)
Inductive tribool := TTrue | TFalse | TIndet.

Definition tri_eqb (a b : tribool) : bool :=
  match a, b with
  | TTrue, TTrue | TFalse, TFalse | TIndet, TIndet => true
  | _, _ => false
  end.

(** Result of [slice::binary_search*]. *)
Inductive bsres := BFound (i : nat) | BInsert (i : nat).

(** Fixed-size arrays [[A; 4]]. *)
Record q4 (A : Type) : Type := Q4 { qa : A; qb : A; qc : A; qd : A }.
Arguments Q4 {A} _ _ _ _.
Arguments qa {A} _.
Arguments qb {A} _.
Arguments qc {A} _.
Arguments qd {A} _.

Definition q4map {A B} (f : A -> B) (q : q4 A) : q4 B :=
  Q4 (f (qa q)) (f (qb q)) (f (qc q)) (f (qd q)).

(** [arr[i]] for [i < 4] (the last component for larger [i], never used). *)
Definition q4get {A} (q : q4 A) (i : nat) : A :=
  match i with 0 => qa q | 1 => qb q | 2 => qc q | _ => qd q end.

Definition q4set {A} (q : q4 A) (i : nat) (x : A) : q4 A :=
  match i with
  | 0 => Q4 x (qb q) (qc q) (qd q)
  | 1 => Q4 (qa q) x (qc q) (qd q)
  | 2 => Q4 (qa q) (qb q) x (qd q)
  | _ => Q4 (qa q) (qb q) (qc q) x
  end.

Definition q4list {A} (q : q4 A) : list A := [qa q; qb q; qc q; qd q].
