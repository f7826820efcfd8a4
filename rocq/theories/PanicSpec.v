(** When an operation on a problem can be carried out: what a caller has to know to avoid a
    panic.  Definitions only. *)
From Coq Require Import List Bool Arith.
From Verif Require Import Base Num GeoModel HazardModel QTModel TransfModel HpgModel CdeModel CdeSpec
  PolyModel SlotMapModel LayoutModel ProblemModel ProblemSpec.
Import ListNotations.

Section Spec.
  Context {F : Type} {N : Num F} {D : Type} {ED : EqD D} {BS : BSearch} {DC : DComp F D}.
  Local Notation item := (item F).
  Local Notation layout := (layout F D).
  Local Notation solution := (solution F D).
  Local Notation bp := (bp F D).
  Local Notation sp := (sp F D).

  (** no item type occurs more often than it is asked for *)
  Definition in_demand (items : list (item * nat)) (s : solution) : Prop :=
    forall i it q, nth_error items i = Some (it, q) -> count i (sol_items s) <= q.
  (** the solution the problem was last set to, by its number: the one created or restored last *)
  Definition sees (x : nat * option nat) (o : bop D) : nat * option nat :=
    match o with
    | BCreate _ => (S (fst x), Some (fst x))
    | BRestore k => (fst x, Some k)
    | _ => x
    end.
  Definition latest (ops : list (bop D)) : option nat := snd (fold_left sees ops (0, None)).

  (** [h]: the solutions created so far, [last]: see [latest] *)
  Definition possible (ovf : bool) (last : option nat) (p : bp) (h : list solution) (o : bop D) : Prop :=
    match o with
    | BPlace o _ =>
        po_item o < length (bi_items (bp_inst p)) /\
        match po_layout o with
        | Real i => i < length (bp_layouts p)
        | Template t => exists b n, nth_error (bi_bins (bp_inst p)) t = Some (b, n) /\ open_of t (bp_layouts p) < n
        end
    | BRemove li k _ => exists i l x, li = Real i /\ nth_error (bp_layouts p) i = Some l /\ In (k, x) (sm_iter (ly_items l))
    | BRemoveLayout li => exists i, li = Real i /\ i < length (bp_layouts p)
    | BCreate None | BFlush => True
    | BCreate (Some k) => last = Some k
    | BRestore k => exists s, nth_error h k = Some s /\ (ovf = true -> in_demand (bi_items (bp_inst p)) s)
    end.
  (** the strip with outline [r] can be made, with the configuration of the present one *)
  Definition makeable (p : sp) (r : rect F) (ptr : nat) : Prop :=
    exists b, bin_from_strip (D := D) r (bn_cfg (ly_bin (sp_layout p))) ptr = Ok b.
  Definition outline (p : sp) : rect F := p_bbox (a_obj (bn_outer (ly_bin (sp_layout p)))).
  (** for strips; [None]: not said here *)
  Definition spossible (ovf : bool) (p : sp) (h : list solution) (o : sop F D) : option Prop :=
    match o with
    | SPlace o _ => Some (po_layout o = Real 0 /\ po_item o < length (si_items (sp_inst p)))
    | SRemove li k _ => Some (li = Real 0 /\ exists x, In (k, x) (sm_iter (ly_items (sp_layout p))))
    | SModify r ptr => Some (makeable p r ptr)
    | SBack w ptr => Some (makeable p (Rc (x_min (outline p)) (y_min (outline p)) (fadd (x_min (outline p)) w) (y_max (outline p))) ptr)
    | SFront w ptr => Some (makeable p (Rc (fsub (x_max (outline p)) w) (y_min (outline p)) (x_max (outline p)) (y_max (outline p))) ptr)
    | SCreate | SFlush => Some True
    | SRestore k => Some (exists s, nth_error h k = Some s /\ (ovf = true -> in_demand (si_items (sp_inst p)) s))
    | SCentered _ _ | SFit _ => None
    end.

  (** no item is placed twice at the same spot of one layout *)
  Definition spread (p : bp) (o : bop D) : Prop :=
    match o with
    | BPlace o _ => forall l, target p (po_layout o) = Some l -> ~ In (po_item o, po_dt o) (placed l)
    | _ => True
    end.
  Fixpoint all_spread (ovf : bool) (s : bp * list solution) (ops : list (bop D)) : Prop :=
    match ops with
    | [] => True
    | o :: r => spread (fst s) o /\ match bstep ovf s o with Ok s' => all_spread ovf s' r | Panic => True end
    end.
  Definition sspread (p : sp) (o : sop F D) : Prop :=
    match o with SPlace o _ => ~ In (po_item o, po_dt o) (placed (sp_layout p)) | _ => True end.
  Fixpoint all_sspread (ovf : bool) (tol : F) (s : sp * list solution) (ops : list (sop F D)) : Prop :=
    match ops with
    | [] => True
    | o :: r => sspread (fst s) o /\ match sstep ovf tol s o with Ok s' => all_sspread ovf tol s' r | Panic => True end
    end.
End Spec.
