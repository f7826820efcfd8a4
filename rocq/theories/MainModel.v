(** The program [lbf]: [/repo/lbf/src/main.rs].  Definitions only.

    Simplifications.  The instance is the value that was read from the file and the
    configuration is given: command line, logging, paths, JSON texts and the default
    configuration are not modelled, writing a file always succeeds.  A file is what it
    holds; a panic ends the program, and the files written before it stay. *)
From Coq Require Import List Bool Arith.
From Verif Require Import Base Num GeoModel HazardModel QTModel TransfModel HpgModel CdeModel PolyModel SlotMapModel LayoutModel
  ProblemModel ParserModel SimplModel LbfModel IoModel ParseModel SvgModel.
Import ListNotations.

(** lbf_config.rs:9-24.  [mc_cde] and [mc_surr] are the parts of [cde_config]; the seed is
    the generator given to [program]. *)
Record main_cfg (F : Type) := MC {
  mc_cde : cfg; mc_surr : surr_cfg F; mc_tol : option F; mc_lbf : lbf_cfg; mc_draw : draw_opts }.
Arguments MC {F} _ _ _ _ _.
Arguments mc_cde {F} _.
Arguments mc_surr {F} _.
Arguments mc_tol {F} _.
Arguments mc_lbf {F} _.
Arguments mc_draw {F} _.

(** the files: json_output.rs:8-15 for [sol_<stem>.json], and the drawing
    [sol_<stem>_<i>.svg] (main.rs:84-100) *)
Inductive file (F : Type) :=
| FSol (j : jinst F) (s : jsolution F) (c : main_cfg F)
| FSvg (i : nat) (d : svg F).
Arguments FSol {F} _ _ _.
Arguments FSvg {F} _ _.
(** how the program ends; [Unfinished]: the search of a strip goes on after the given number
    of rounds *)
Inductive ending := Done | Aborted | Unfinished.

Section Main.
  Context {F : Type} {N : Num F} {T : Trig F} {ED : EqD (dtransf F)} {BS : BSearch} {X : Extra F} {G : Type} {RG : Rng F G}.
  Local Notation item := (item F).
  Local Notation lsnap := (lsnap F (dtransf F)).
  Local Notation solution := (solution F (dtransf F)).
  Variable umax : nat.
  (** the constants of piers.rs, [FPA::tolerance()], the rounds allowed for a strip *)
  Variable piers : pier_cfg F.
  Variable tl : F.
  Variable fuel : nat.

  (** main.rs:53-58: polygons are always centred *)
  Definition main_parser (c : main_cfg F) : parser F := Parser (mc_tol c) (mc_cde c) piers (mc_surr c) true.
  (** main.rs:92-100: the drawings written, and whether all were *)
  Fixpoint write_svgs (c : main_cfg F) (pre : nat -> transf F) (items : list (item * nat)) (k : nat) (l : list lsnap) (ptr : nat)
      : list (file F) * ending :=
    match l with
    | [] => ([], Done)
    | s :: r =>
        match snapshot_to_svg (main_parser c) pre items (mc_draw c) s ptr with
        | Panic => ([], Aborted)
        | Ok d => let '(fs, e) := write_svgs c pre items (S k) r ptr in (FSvg k d :: fs, e)
        end
    end.
  (** main.rs:69-100 *)
  Definition write_all (c : main_cfg F) (j : jinst F) (js : res (jsolution F)) (pre : nat -> transf F) (items : list (item * nat)) (s : solution) (ptr : nat)
      : list (file F) * ending :=
    match js with
    | Panic => ([], Aborted)
    | Ok js => let '(fs, e) := write_svgs c pre items 0 (so_layouts s) ptr in (FSol j js c :: fs, e)
    end.
  (** main.rs:26-101.  [p1], [p2], [p3]: the allocations of the three phases *)
  Definition program (c : main_cfg F) (j : jinst F) (g : G) (p1 p2 p3 : nat) : list (file F) * ending :=
    match parse umax (main_parser c) j p1 with
    | Panic => ([], Aborted)
    | Ok (IBP i, pres) =>
        match lbf_bp i (mc_lbf c) g p2 with
        | Panic => ([], Aborted)
        | Ok (_, s, _) => write_all c j (bp_export (pre_of pres) i s) (pre_of pres) (bi_items i) s p3
        end
    | Ok (ISP i, pres) =>
        match lbf_sp fuel tl i (mc_cde c) (mc_lbf c) g p2 with
        | Panic => ([], Aborted)
        | Ok None => ([], Unfinished)
        | Ok (Some (_, s, _)) => write_all c j (sp_export (pre_of pres) i s) (pre_of pres) (si_items i) s p3
        end
    end.
End Main.
