(** Properties C80 and C81: asking the engine about part of its hazards, and looking up the
    hazards in a segment, a disk or a rectangle. *)
From Coq Require Import List Bool Arith ZArith QArith.
From Verif Require Import Base Num GeoModel HazardModel QTModel TransfModel HpgModel CdeModel CdeSpec Instances CdeExamples
  QuerySpec QueryProofs QueryExamples.
From Coq Require Import Reals.
From Verif Require Import GeoModel HazardModel QTModel TransfModel HpgModel CdeModel CdeSpec GeoSpec PlaceSpec PlaceExampleProofs QueryExampleProofs.
Import ListNotations.
Local Open Scope nat_scope.

(** *** C80 *)
Theorem C80_filter_selects :
  forall (F : Type) (N : Num F) (D : Type) (ED : EqD D) (BS : BSearch), bsearch_ok BS ->
  forall bb st lvl n (ops : list (op F D)) (c : cde F D) sn (f : fexp D) e, valid st ops -> engine bb st lvl n ops = Ok (c, sn) ->
  (In e (generate_irrelevant (filter_of f) (all_hazards c)) <-> hides f e /\ In e (map f_ent (facts st ops))).
Proof. intros F N D ED BS Hb. exact (generated_iff Hb). Qed.
Print Assumptions C80_filter_selects.
Theorem C80_filtered_equals_absent :
  forall (F : Type) (N : Num F) (D : Type) (ED : EqD D) (BS : BSearch), bsearch_ok BS ->
  forall bb lvl st (ops : list (op F D)) n c sn st' (ops' : list (op F D)) n' c' sn' (f : fexp D) q,
  valid st ops -> engine bb st lvl n ops = Ok (c, sn) ->
  valid st' ops' -> engine bb st' lvl n' ops' = Ok (c', sn') ->
  (forall x, In x (facts st' ops') <-> In x (facts st ops) /\ ~ hides f (f_ent x)) ->
  good_question q -> has_irr q = true ->
  exists t, ask c (with_irr q (generate_irrelevant (filter_of f) (all_hazards c))) = Ok t /\ ask c' (with_irr q []) = Ok t.
Proof. intros F N D ED BS Hb. exact (filtered_absent Hb). Qed.
Print Assumptions C80_filtered_equals_absent.
Example C80_example :
  (valid fst_ fops /\ valid [exterior; bad_zone] [OReg itB]) /\
  (exists sn, engine bin_box fst_ 4 0 fops = Ok (feng fst_ fops, sn)) /\
  (exists sn, engine bin_box [exterior; bad_zone] 4 0 [OReg itB] = Ok (feng [exterior; bad_zone] [OReg itB], sn)) /\
  (forall x, In x (facts [exterior; bad_zone] [OReg itB]) <-> In x (facts fst_ fops) /\ ~ hides fexp1 (f_ent x)) /\
  generate_irrelevant (filter_of fexp1) (all_hazards (feng fst_ fops)) = [InferiorQualityZone 5 0; PlacedItem 1 0] /\
  ask (feng fst_ fops) (AskPoly (box 17 17 20 20) []) = Ok TTrue /\
  ask (feng fst_ fops) (AskPoly (box 17 17 20 20) [InferiorQualityZone 5 0; PlacedItem 1 0]) = Ok TFalse /\
  ask (feng fst_ fops) (AskPoly (box 17 3 20 5) [InferiorQualityZone 5 0; PlacedItem 1 0]) = Ok TTrue /\
  generate_irrelevant (filter_of FBin) (all_hazards (feng fst_ fops)) = [BinExterior; InferiorQualityZone 5 0; InferiorQualityZone 1 1].
Proof. exact (conj fops_valid ex_filters). Qed.

(** *** C81: refuted; a disk inside an item is not found to be in it, at any depth *)
Local Open Scope R_scope.
#[local] Existing Instance RNum.
Theorem C81_all_within_refuted : forall depth, exists (st : list (hazard R nat)) ops bb c sn f k,
  valid (N := RNum) st ops /\ engine (N := RNum) (ED := NatEqD) (BS := LinSearch) bb st depth 0 ops = Ok (c, sn) /\
  framed bb (facts (ED := NatEqD) st ops) /\ good_facts (facts (ED := NatEqD) st ops) /\
  In f (facts (ED := NatEqD) st ops) /\ 0 < crad k /\ (forall p, covers (QDisk k) p -> in_rect bb p /\ strictly_blocked f p) /\
  collect (ED := NatEqD) c (CollWithin (query_of (QDisk k))) [] [] = Ok [].
Proof. exact unseen_all. Qed.
Print Assumptions C81_all_within_refuted.
(** What holds: everything found is there; *)
Theorem C81_found_is_there_partial :
  forall (D : Type) (ED : EqD D) (BS : BSearch), bsearch_ok BS ->
  forall (bb : rrect) (st : list (hazard R D)) (lvl n : nat) (ops : list (op R D)) (c : cde R D) sn,
  valid st ops -> engine bb st lvl n ops = Ok (c, sn) -> framed bb (facts st ops) -> sound_facts (facts st ops) ->
  forall s irr buf, shape_ok s -> exists new, collect c (CollWithin (query_of s)) irr buf = Ok (buf ++ new) /\ NoDup new /\
    forall e, In e new -> ~ In e buf /\ ~ In e irr /\
      ((exists f p, In f (facts st ops) /\ f_ent f = e /\ covers s p /\ blocked f p) \/ (e = BinExterior /\ buf = [] /\ ~ in_rect bb (centre s))).
Proof. intros D ED BS Hb. exact (looked_up Hb). Qed.
Print Assumptions C81_found_is_there_partial.
(** when the border of a hazard enters the disk or rectangle, something is found; *)
Theorem C81_border_found_partial :
  forall (D : Type) (ED : EqD D) (BS : BSearch), bsearch_ok BS ->
  forall (bb : rrect) (st : list (hazard R D)) (lvl n : nat) (ops : list (op R D)) (c : cde R D) sn,
  valid st ops -> engine bb st lvl n ops = Ok (c, sn) -> framed bb (facts st ops) -> sound_facts (facts st ops) ->
  forall s f x irr buf, shape_ok s -> is_area s -> In f (facts st ops) -> ~ In (f_ent f) (buf ++ irr) ->
    on_border (p_pts (f_poly f)) x -> covers s x -> in_rect bb x ->
    ask c (AskQuery (query_of s) irr) = Ok TTrue /\ exists e new, collect c (CollWithin (query_of s)) irr buf = Ok (buf ++ e :: new).
Proof. intros D ED BS Hb. exact (border_found Hb). Qed.
Print Assumptions C81_border_found_partial.
(** and when nothing more is found, a hazard is either absent from the disk or rectangle or
    fills it. *)
Theorem C81_all_or_nothing_partial :
  forall (D : Type) (ED : EqD D) (BS : BSearch), bsearch_ok BS ->
  forall (bb : rrect) (st : list (hazard R D)) (lvl n : nat) (ops : list (op R D)) (c : cde R D) sn,
  valid st ops -> engine bb st lvl n ops = Ok (c, sn) -> framed bb (facts st ops) -> sound_facts (facts st ops) ->
  forall s irr buf, shape_ok s -> is_area s -> collect c (CollWithin (query_of s)) irr buf = Ok buf ->
  forall f, In f (facts st ops) -> ~ In (f_ent f) (buf ++ irr) ->
    (forall p, covers s p -> in_rect bb p -> ~ blocked f p) \/ (forall p, covers s p -> in_rect bb p -> strictly_blocked f p).
Proof. intros D ED BS Hb. exact (silence Hb). Qed.
Print Assumptions C81_all_or_nothing_partial.
Example C81_example : forall depth, exists c sn,
  engine (N := RNum) (D := nat) (ED := NatEqD) (BS := LinSearch) ex_bb ex_st depth 0 ex_ops = Ok (c, sn) /\
  shape_ok (QDisk (Ci (Pt 5 5) 1)) /\ shape_ok (QBox (Rc 1 1 4 9)) /\
  (exists f, In f (facts ex_st ex_ops) /\ on_border (p_pts (f_poly f)) (Pt 5 5)) /\
  collect c (CollWithin (query_of (QDisk (Ci (Pt 5 5) 1)))) [] [] = Ok [PlacedItem 1 0%nat] /\
  collect c (CollWithin (query_of (QBox (Rc 1 1 4 9)))) [] [] = Ok [].
Proof. exact ex_lookup. Qed.
