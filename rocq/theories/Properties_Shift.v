(** Property C98: how items that lie elsewhere in the coordinates of the file are read.
    Vocabulary: ShiftSpec.v.  [M] is the largest number.  This is what holds instead of C61,
    which is refuted. *)
From Verif Require Import Base Num GeoModel HazardModel QTModel TransfModel PolyModel HpgModel CdeModel LayoutModel ProblemModel SimplModel LbfModel IoModel ParseModel
  Instances SimplExampleProofs LbfExampleProofs LbfExample2Proofs ParseExample2Proofs ParseExample3Proofs ShiftProofs ShiftSimplProofs ShiftParseProofs ShiftBinProofs ShiftInstProofs ShiftExampleProofs.
From Coq Require Import Reals List.
From Verif Require Import GeoModel HazardModel QTModel TransfModel HpgModel CdeModel CdeSpec GeoSpec PlaceSpec HpgSpec ShapeSpec SimplSpec
  ProblemModel LbfModel LbfSpec IoModel IoSpec ParseModel ParseSpec ShiftSpec.
Import ListNotations.
Local Open Scope R_scope.
#[local] Existing Instance RTrig.

(** Polygons: made of moved points exactly when made of the points, and then moved. *)
Theorem C98_polygon_moved : forall (dx dy : R) (l : list (point R)),
  poly_new (N := RNum) (map (shifted dx dy) l) = rmap (moved_poly dx dy) (poly_new (N := RNum) l).
Proof. exact sh_poly_new. Qed.
Print Assumptions C98_polygon_moved.
(** Their fail-fast surrogates likewise, as long as no piers are wanted. *)
Theorem C98_surrogate_moved : forall (dx dy : R) (cfg : pier_cfg R) (sc : surr_cfg R) (s : poly R), sc_nff_piers sc = 0%nat ->
  generate_surrogate (N := RNum) cfg sc (moved_poly dx dy s) = rmap (moved_poly dx dy) (generate_surrogate (N := RNum) cfg sc s).
Proof. exact sh_generate. Qed.
Print Assumptions C98_surrogate_moved.
(** Simplification likewise, for every tolerance. *)
Theorem C98_simplified_moved : forall (dx dy : R) (s : poly R) m tol,
  simplify_shape (N := RNum) (moved_poly dx dy s) m tol = rmap (moved_poly dx dy) (simplify_shape (N := RNum) s m tol).
Proof. exact sh_simplify. Qed.
Print Assumptions C98_simplified_moved.
(** Read without centring, items move along; a move never makes the reading panic. *)
Theorem C98_item_moved :
  forall (M : R) (X : Extra R) (pr : parser R) dx dy, let N := RNumT Reqb M in
  pr_center pr = false -> sc_nff_piers (pr_surr pr) = 0%nat -> forall d o l q id,
  parse_item pr (JI d o (JSimple (moved_vertices dx dy l)) q) id =
  rmap (fun x => (moved_item dx dy (fst (fst x)), snd (fst x), snd x)) (parse_item pr (JI d o (JSimple l) q) id).
Proof. intros M X pr dx dy N. exact (item_moved M pr dx dy). Qed.
Print Assumptions C98_item_moved.
(** Read with centring, with piers or without: if both are read, they are the same item, and
    the internal positions of corresponding points are the same. *)
Theorem C98_centred_same :
  forall (M : R) (X : Extra R) (pr : parser R) dx dy, let N := RNumT Reqb M in
  pr_center pr = true -> forall d o l q id it pre n it' pre' n',
  parse_item pr (JI d o (JSimple l) q) id = Ok (it, pre, n) ->
  parse_item pr (JI d o (JSimple (moved_vertices dx dy l)) q) id = Ok (it', pre', n') ->
  it' = it /\ n' = n /\ forall p, tr_point (N := RNum) pre' (shifted dx dy p) = tr_point (N := RNum) pre p.
Proof. intros M X pr dx dy N. exact (centred_same M pr dx dy). Qed.
Print Assumptions C98_centred_same.
(** Without piers both are read or none. *)
Theorem C98_centred_reads :
  forall (M : R) (X : Extra R) (pr : parser R) dx dy, let N := RNumT Reqb M in
  pr_center pr = true -> sc_nff_piers (pr_surr pr) = 0%nat -> forall d o l q id it pre n,
  parse_item pr (JI d o (JSimple l) q) id = Ok (it, pre, n) ->
  exists pre', parse_item pr (JI d o (JSimple (moved_vertices dx dy l)) q) id = Ok (it, pre', n) /\
    forall p, tr_point (N := RNum) pre' (shifted dx dy p) = tr_point (N := RNum) pre p.
Proof. intros M X pr dx dy N. exact (centred_reads M pr dx dy). Qed.
Print Assumptions C98_centred_reads.
(** the outlines of all rectangles are read, here and anywhere *)
Example C98_example : forall M, let N := RNumT Reqb M in let X := REx in forall w h dx dy d o q id, 0 < w -> 0 < h ->
  exists it pre pre', parse_item (box_parser true) (JI d o (JSimple (box_outline w h)) q) id = Ok (it, pre, d) /\
    parse_item (box_parser true) (JI d o (JSimple (moved_vertices dx dy (box_outline w h))) q) id = Ok (it, pre', d) /\
    forall p, tr_point pre' (shifted dx dy p) = tr_point pre p.
Proof. exact outline_moved. Qed.
Example C98_example_uncentred : forall M b, let N := RNumT Reqb M in let X := REx in forall w h d o q id, 0 < w -> 0 < h ->
  exists it pre, parse_item (box_parser b) (JI d o (JSimple (box_outline w h)) q) id = Ok (it, pre, d).
Proof. exact outline_read. Qed.
(** Bins given by vertices, with holes and zones, read with centring: here and elsewhere the
    same bin but for the pretransformation. *)
Theorem C98_bin_same :
  forall (M : R) (X : Extra R) (ED : EqD (dtransf R)) (BS : BSearch) umax (pr : parser R) dx dy, let N := RNumT Reqb M in
  pr_center pr = true -> forall j id ptr b n b' n', bin_by_vertices j ->
  parse_bin umax pr j id ptr = Ok (b, n) -> parse_bin umax pr (moved_bin dx dy j) id ptr = Ok (b', n') ->
  same_bin b b' /\ n' = n /\ forall p, tr_point (N := RNum) (bn_pre b') (shifted dx dy p) = tr_point (N := RNum) (bn_pre b) p.
Proof. intros M X ED BS umax pr dx dy N. exact (bin_same M umax pr dx dy). Qed.
Print Assumptions C98_bin_same.
Example C98_bin_example : forall M, let N := RNumT Reqb M in let ED := DtEq in let BS := LinSearch in let X := REx in
  forall umax a b dx dy w h cost stock id ptr, 0 < w -> 0 < h -> w <= 400 * h -> h <= 400 * w -> let j := JB cost stock (JSimple (box_at a b w h)) [] in
  bin_by_vertices j /\ exists x x' n, parse_bin umax (box_parser true) j id ptr = Ok (x, n) /\ parse_bin umax (box_parser true) (moved_bin dx dy j) id ptr = Ok (x', n).
Proof. exact bin_two_places. Qed.
(** a trapeze is simplified to a triangle wherever it lies *)
Example C98_simplified_example : forall M, let N := RNumT Reqb M in let X := REx in forall dx dy id, exists it,
  parse_item slack_parser (JI 3 (Some [0; 90]) (JSimple jtrapeze) None) id = Ok (it, t_empty, 3%nat) /\
  parse_item slack_parser (JI 3 (Some [0; 90]) (JSimple (moved_vertices dx dy jtrapeze)) None) id = Ok (moved_item dx dy it, t_empty, 3%nat).
Proof. exact trapeze_moved. Qed.
(** Whole files, read with centring and without piers: the items may lie anywhere, each
    somewhere else.  The instance is the same (so that everything done with it is the same),
    and the pretransformations make up for the moves. *)
Theorem C98_instance_anywhere :
  forall (M : R) (X : Extra R) (ED : EqD (dtransf R)) (BS : BSearch) umax (pr : parser R), let N := RNumT Reqb M in
  pr_center pr = true -> sc_nff_piers (pr_surr pr) = 0%nat -> forall items bs h vs ptr inst pres,
  length vs = length items -> Forall (fun p => movable (fst p) (snd p)) (combine vs items) ->
  parse umax pr (JIn items bs h) ptr = Ok (inst, pres) ->
  exists pres', parse umax pr (JIn (items_at vs items) bs h) ptr = Ok (inst, pres') /\
    forall i v p, nth_error vs i = Some v -> tr_point (N := RNum) (pre_of pres' i) (shifted (fst v) (snd v) p) = tr_point (N := RNum) (pre_of pres i) p.
Proof. intros M X ED BS umax pr N. exact (instance_anywhere M umax pr). Qed.
Print Assumptions C98_instance_anywhere.
Example C98_instance_example : forall M, let N := RNumT Reqb M in let ED := DtEq in let BS := LinSearch in let X := REx in forall umax dx dy, let vs := [(dx, dy); (0, 0)] in
  Forall (fun p => movable (fst p) (snd p)) (combine vs outline_items) /\
  exists inst pres pres', parse umax (box_parser true) (JIn outline_items (Some some_bins) None) 0 = Ok (inst, pres) /\
    parse umax (box_parser true) (JIn (items_at vs outline_items) (Some some_bins) None) 0 = Ok (inst, pres').
Proof. exact outline_file. Qed.
