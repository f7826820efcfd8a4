(** Properties C01-C12, C51 of the collision detection engine.  The vocabulary is
    that of [CdeSpec]; the examples are the concrete engines of [CdeExamples].
    Theorems hold for every arithmetic [Num F] (no laws assumed) and every
    implementation of [slice::binary_search_by] meeting its contract. *)
From Coq Require Import List Bool Arith QArith Permutation.
From Verif Require Import Base Num GeoModel HazardModel QTModel TransfModel HpgModel CdeModel CdeSpec
  Instances CdeThmProofs CdeExamples CdeExampleProofs.
Import ListNotations.
Local Open Scope nat_scope.

(** *** C01 *)
Theorem C01_strongest_hazard_exact :
  forall (F D : Type) (ED : EqD D) (BS : BSearch), bsearch_ok BS ->
  forall (ops : list (hvop F D)) (irr : list (entity D)), hvops_ok [] ops ->
  exists o, strongest (fold_left hv_step ops hv_new) irr = Ok o /\
    match o with
    | Some h => candidate (fold_left hv_astep ops []) irr h /\
                forall h', candidate (fold_left hv_astep ops []) irr h' ->
                           stronger_eq (q_pres h) (q_pres h')
    | None => forall h, ~ candidate (fold_left hv_astep ops []) irr h
    end.
Proof. intros F D ED BS Hb. exact (strongest_exact Hb). Qed.
Print Assumptions C01_strongest_hazard_exact.
Example C01_example :
  hvops_ok [] ex_hvops /\
  strongest (fold_left hv_step ex_hvops hv_new) [PlacedItem 1 0] = Ok (Some (Qh (PlacedItem 3 0) PEntire true)).
Proof. exact ex_hv. Qed.

(** *** C02 *)
Theorem C02_history_independent :
  forall (F : Type) (N : Num F) (D : Type) (ED : EqD D) (BS : BSearch), bsearch_ok BS ->
  forall (bb : rect F) (depth : nat)
    (statics : list (hazard F D)) (ops : list (op F D)) (n_cells : nat) (c : cde F D) sn
    (statics' : list (hazard F D)) (ops' : list (op F D)) (n_cells' : nat) (c' : cde F D) sn'
    (q : question F D),
  valid statics ops -> engine bb statics depth n_cells ops = Ok (c, sn) ->
  valid statics' ops' -> engine bb statics' depth n_cells' ops' = Ok (c', sn') ->
  Permutation (facts statics ops) (facts statics' ops') -> good_question q ->
  exists t, ask c q = Ok t /\ ask c' q = Ok t.
Proof. intros F N D ED BS Hb. exact (history_independent Hb). Qed.
Print Assumptions C02_history_independent.
(** in particular: a fresh engine in which the currently registered hazards are
    registered one by one *)
Theorem C02_as_fresh_engine :
  forall (F : Type) (N : Num F) (D : Type) (ED : EqD D) (BS : BSearch), bsearch_ok BS ->
  forall (bb : rect F) (depth n_cells : nat) (statics : list (hazard F D)) (ops : list (op F D))
    (c : cde F D) sn,
  valid statics ops -> engine bb statics depth n_cells ops = Ok (c, sn) ->
  exists f fsn, engine bb statics depth 0 (map (fun h => OReg h) (cd_dyn c)) = Ok (f, fsn) /\
    forall q, good_question q -> exists t, ask c q = Ok t /\ ask f q = Ok t.
Proof. intros F N D ED BS Hb. exact (as_fresh Hb). Qed.
Print Assumptions C02_as_fresh_engine.
Example C02_example :
  valid [exterior] ops1 /\ valid [exterior] ops2 /\
  Permutation (facts [exterior] ops1) (facts [exterior] ops2) /\
  (exists sn, engine bin_box [exterior] 4 5 ops1 = Ok (eng [exterior] 5 ops1, sn)) /\
  (exists sn, engine bin_box [exterior] 4 0 ops2 = Ok (eng [exterior] 0 ops2, sn)) /\
  ask (eng [exterior] 5 ops1) (AskPoly q_hit []) = Ok TTrue /\
  ask (eng [exterior] 0 ops2) (AskPoly q_hit []) = Ok TTrue /\
  ask (eng [exterior] 5 ops1) (AskPoly q_free []) = Ok TFalse.
Proof. exact ex_history. Qed.

(** *** C03 *)
Theorem C03_reported_is_responsible :
  forall (F : Type) (N : Num F) (D : Type) (ED : EqD D) (BS : BSearch), bsearch_ok BS ->
  forall (bb : rect F) (depth n_cells : nat) (statics : list (hazard F D)) (ops : list (op F D))
    (c : cde F D) sn (q : query F) (irr : list (entity D)) (e : entity D),
  valid statics ops -> engine bb statics depth n_cells ops = Ok (c, sn) ->
  reported c q irr = Ok (Some e) ->
  exists h : hazard F D,
    In h (cd_static c ++ cd_dyn c) /\ In (fact_of h) (facts statics ops) /\ h_ent h = e /\ ~ In e irr /\
    exists c1 sn1, engine bb [] depth 0 [OReg h] = Ok (c1, sn1) /\ reported c1 q [] = Ok (Some e).
Proof. intros F N D ED BS Hb. exact (responsible Hb). Qed.
Print Assumptions C03_reported_is_responsible.
Example C03_example :
  reported (eng [exterior] 5 ops1) (edge_query (Ed (pt 3 3) (pt 8 8))) [] = Ok (Some (PlacedItem 1 0)) /\
  reported (eng [exterior] 5 ops1) (edge_query (Ed (pt 3 3) (pt 8 8))) [PlacedItem 1 0] = Ok None.
Proof. exact ex_reported. Qed.

(** *** C04 *)
Theorem C04_ignored_equals_absent :
  forall (F : Type) (N : Num F) (D : Type) (ED : EqD D) (BS : BSearch), bsearch_ok BS ->
  forall (bb : rect F) (depth : nat)
    (statics : list (hazard F D)) (ops : list (op F D)) (n_cells : nat) (c : cde F D) sn
    (statics' : list (hazard F D)) (ops' : list (op F D)) (n_cells' : nat) (c' : cde F D) sn'
    (q : question F D) (irr : list (entity D)),
  valid statics ops -> engine bb statics depth n_cells ops = Ok (c, sn) ->
  valid statics' ops' -> engine bb statics' depth n_cells' ops' = Ok (c', sn') ->
  Permutation (filter (fun f => negb (memb ent_eqb (f_ent f) irr)) (facts statics ops))
              (facts statics' ops') ->
  good_question q -> has_irr q = true ->
  exists t, ask c (with_irr q irr) = Ok t /\ ask c' (with_irr q []) = Ok t.
Proof. intros F N D ED BS Hb. exact (ignore_absent Hb). Qed.
Print Assumptions C04_ignored_equals_absent.
Example C04_example :
  Permutation (filter (fun f => negb (memb ent_eqb (f_ent f) [PlacedItem 2 0])) (facts [exterior] ops3))
              (facts [exterior] ops2) /\
  ask (eng [exterior] 5 ops3) (AskPoly (box 10 10 12 12) []) = Ok TTrue /\
  ask (eng [exterior] 5 ops3) (AskPoly (box 10 10 12 12) [PlacedItem 2 0]) = Ok TFalse /\
  ask (eng [exterior] 0 ops2) (AskPoly (box 10 10 12 12) []) = Ok TFalse.
Proof. exact ex_ignore. Qed.

(** *** C05 *)
Theorem C05_monotone :
  forall (F : Type) (N : Num F) (D : Type) (ED : EqD D) (BS : BSearch), bsearch_ok BS ->
  forall (bb : rect F) (depth : nat)
    (statics : list (hazard F D)) (ops : list (op F D)) (n_cells : nat) (c : cde F D) sn
    (statics' : list (hazard F D)) (ops' : list (op F D)) (n_cells' : nat) (c' : cde F D) sn'
    (q : question F D) (irr irr' : list (entity D)),
  valid statics ops -> engine bb statics depth n_cells ops = Ok (c, sn) ->
  valid statics' ops' -> engine bb statics' depth n_cells' ops' = Ok (c', sn') ->
  incl (facts statics ops) (facts statics' ops') -> incl irr' irr -> good_question q ->
  exists t t', ask c (with_irr q irr) = Ok t /\ ask c' (with_irr q irr') = Ok t' /\ tri_le t t'.
Proof. intros F N D ED BS Hb. exact (monotone Hb). Qed.
Print Assumptions C05_monotone.
Example C05_example :
  incl (facts [exterior] ops2) (facts [exterior] ops3) /\
  ask (eng [exterior] 0 ops2) (AskPoly (box 10 10 12 12) []) = Ok TFalse /\
  ask (eng [exterior] 5 ops3) (AskPoly (box 10 10 12 12) []) = Ok TTrue.
Proof. exact ex_monotone. Qed.

(** *** C06 *)
Theorem C06_deferred_equals_instant :
  forall (F : Type) (N : Num F) (D : Type) (ED : EqD D) (BS : BSearch), bsearch_ok BS ->
  forall (bb : rect F) (depth n_cells : nat) (statics : list (hazard F D)) (ops : list (op F D))
    (c : cde F D) sn (n_cells' : nat) (c' : cde F D) sn' (q : question F D),
  valid statics ops -> engine bb statics depth n_cells ops = Ok (c, sn) ->
  engine bb statics depth n_cells' (instant ops) = Ok (c', sn') -> good_question q ->
  exists t, ask c q = Ok t /\ ask c' q = Ok t.
Proof. intros F N D ED BS Hb. exact (deferred_immediate Hb). Qed.
Print Assumptions C06_deferred_equals_instant.
Example C06_example :
  instant [OReg itA; ODereg (PlacedItem 1 0) false; OReg itB; OCommit; OReg itA] =
    [OReg itA; ODereg (PlacedItem 1 0) true; OReg itB; OReg itA] /\
  ask (eng [exterior] 0 [OReg itA; ODereg (PlacedItem 1 0) false; OReg itB]) (AskPoly q_hit []) = Ok TFalse /\
  ask (eng [exterior] 0 [OReg itA; ODereg (PlacedItem 1 0) false; OReg itB; OCommit; OReg itA])
      (AskPoly q_hit []) = Ok TTrue.
Proof. exact ex_deferred. Qed.

(** *** C07 *)
Theorem C07_snapshot_restored :
  forall (F : Type) (N : Num F) (D : Type) (ED : EqD D) (BS : BSearch), bsearch_ok BS ->
  forall (bb : rect F) (depth n_cells : nat) (statics : list (hazard F D)) (ops ops' : list (op F D))
    (c1 : cde F D) sn1 (c2 : cde F D) sn2,
  valid statics (ops ++ OSnap :: ops' ++ [ORestore (snaps ops)]) ->
  engine bb statics depth n_cells (ops ++ [OSnap]) = Ok (c1, sn1) ->
  engine bb statics depth n_cells (ops ++ OSnap :: ops' ++ [ORestore (snaps ops)]) = Ok (c2, sn2) ->
  Permutation (map fact_of (cd_dyn c2)) (map fact_of (cd_dyn c1)) /\
  cd_static c2 = cd_static c1 /\ cd_hpg c2 = cd_hpg c1 /\ cd_unc c2 = [] /\
  forall q, good_question q -> exists t, ask c1 q = Ok t /\ ask c2 q = Ok t.
Proof. intros F N D ED BS Hb. exact (snapshot_restored Hb). Qed.
Print Assumptions C07_snapshot_restored.
Example C07_example :
  valid [exterior] ops1 /\ ops1 = ex_before ++ OSnap :: ex_after ++ [ORestore (snaps ex_before)] /\
  (exists sn, engine bin_box [exterior] 4 5 ops1 = Ok (eng [exterior] 5 ops1, sn)) /\
  (exists sn, engine bin_box [exterior] 4 5 (ex_before ++ [OSnap]) = Ok (eng [exterior] 5 (ex_before ++ [OSnap]), sn)) /\
  is_some (cd_hpg (eng [exterior] 5 ops1)) = true /\
  cd_dyn (eng [exterior] 5 ops1) <> [].
Proof. exact ex_snapshot. Qed.

(** *** C08.  For engines without proximity grid (the configuration
    [hpg_n_cells = 0]) no operation and no query panics; with a grid, queries never
    panic and an update can only panic inside the grid. *)
Theorem C08_updates_never_panic :
  forall (F : Type) (N : Num F) (D : Type) (ED : EqD D) (BS : BSearch), bsearch_ok BS ->
  forall (bb : rect F) (depth : nat) (statics : list (hazard F D)) (ops : list (op F D)),
  valid statics ops -> exists c sn, engine bb statics depth 0 ops = Ok (c, sn).
Proof. intros F N D ED BS Hb. exact (updates_total Hb). Qed.
Print Assumptions C08_updates_never_panic.
Theorem C08_updates_quadtree_never_panics :
  forall (F : Type) (N : Num F) (D : Type) (ED : EqD D) (BS : BSearch), bsearch_ok BS ->
  forall (bb : rect F) (depth n_cells : nat) (statics : list (hazard F D)) (ops : list (op F D))
    (o : op F D) (c : cde F D) sn,
  valid statics (ops ++ [o]) -> engine bb statics depth n_cells ops = Ok (c, sn) ->
  exists c' sn', step (no_grid c, sn) o = Ok (c', sn').
Proof. intros F N D ED BS Hb. exact (updates_no_grid Hb). Qed.
Print Assumptions C08_updates_quadtree_never_panics.
Theorem C08_questions_never_panic :
  forall (F : Type) (N : Num F) (D : Type) (ED : EqD D) (BS : BSearch), bsearch_ok BS ->
  forall (bb : rect F) (depth n_cells : nat) (statics : list (hazard F D)) (ops : list (op F D))
    (c : cde F D) sn (q : question F D),
  valid statics ops -> engine bb statics depth n_cells ops = Ok (c, sn) -> good_question q ->
  exists t, ask c q = Ok t.
Proof. intros F N D ED BS Hb. exact (questions_total Hb). Qed.
Print Assumptions C08_questions_never_panic.

(** *** C09 *)
Theorem C09_tristate_agrees :
  forall (F : Type) (N : Num F) (D : Type) (ED : EqD D) (BS : BSearch), bsearch_ok BS ->
  forall (bb : rect F) (depth n_cells : nat) (statics : list (hazard F D)) (ops : list (op F D))
    (c : cde F D) sn (q : query F) (irr : list (entity D)),
  valid statics ops -> engine bb statics depth n_cells ops = Ok (c, sn) ->
  exists b t, ask c (AskQuery q irr) = Ok (yn b) /\
    node_definitely (cd_qt c) (qy_rect q) irr = Ok t /\
    (t = TTrue -> b = true) /\ (b = true -> t <> TFalse).
Proof. intros F N D ED BS Hb. exact (tri_vs_bool Hb). Qed.
Print Assumptions C09_tristate_agrees.
Theorem C09_single_hazard :
  forall (F : Type) (N : Num F) (D : Type) (ED : EqD D) (BS : BSearch), bsearch_ok BS ->
  forall (bb : rect F) (depth n_cells : nat) (statics : list (hazard F D)) (ops : list (op F D))
    (c : cde F D) sn (qr : rect F -> bool) (e : entity D),
  valid statics ops -> engine bb statics depth n_cells ops = Ok (c, sn) ->
  exists t, node_definitely_with (cd_qt c) qr e = Ok t /\
    node_definitely (cd_qt c) qr
      (filter (fun x => negb (ent_eqb x e)) (map f_ent (facts statics ops))) = Ok t.
Proof. intros F N D ED BS Hb. exact (single_tri Hb). Qed.
Print Assumptions C09_single_hazard.
Example C09_example :
  ask (eng [exterior] 5 ops1) (AskCircle (Ci (pt 3 3) 0%Q) []) = Ok TTrue /\
  ask (eng [exterior] 5 ops1) (AskCircle (Ci (pt 5 5) 0%Q) []) = Ok TIndet /\
  ask (eng [exterior] 5 ops1) (AskCircle (Ci (pt 20 20) 1%Q) []) = Ok TFalse.
Proof. exact ex_tristate. Qed.

(** *** C10 *)
Theorem C10_collect_respects_buffer :
  forall (F : Type) (N : Num F) (D : Type) (ED : EqD D) (BS : BSearch), bsearch_ok BS ->
  forall (bb : rect F) (depth n_cells : nat) (statics : list (hazard F D)) (ops : list (op F D))
    (c : cde F D) sn (k : collection F) (irr buf : list (entity D)),
  valid statics ops -> engine bb statics depth n_cells ops = Ok (c, sn) -> good_collection k ->
  exists new, collect c k irr buf = Ok (buf ++ new) /\ NoDup new /\
    forall e, In e new -> ~ In e buf /\ ~ In e irr /\
      ((exists h : hazard F D,
          In h (cd_static c ++ cd_dyn c) /\ In (fact_of h) (facts statics ops) /\ h_ent h = e /\
          exists c1 sn1, engine bb [] depth 0 [OReg h] = Ok (c1, sn1) /\
                         ask c1 (verdict_of k []) = Ok TTrue) \/
       (e = BinExterior /\ buf = [] /\ ~ centre_inside bb k)).
Proof. intros F N D ED BS Hb. exact (collect_sound Hb). Qed.
Print Assumptions C10_collect_respects_buffer.
Example C10_example :
  collect (eng [exterior] 5 ops3) (CollPoly (box 3 3 12 12)) [PlacedItem 3 0] [BinHole 5; BinExterior] =
    Ok [BinHole 5; BinExterior; PlacedItem 1 0; PlacedItem 2 0].
Proof. exact ex_collect. Qed.

(** *** C11: refuted; collecting stops at the first hazard covering a quadtree node *)
Theorem C11_refuted :
  exists (statics : list (hazard Q nat)) (ops : list (op Q nat)) c sn (s : poly Q) (h : hazard Q nat) c1 sn1 l,
    valid statics ops /\ engine bin_box statics 4 0 ops = Ok (c, sn) /\
    good_poly s /\ relation_to bin_box (p_bbox s) = Surrounding /\
    In h (cd_static c ++ cd_dyn c) /\
    engine bin_box [] 4 0 [OReg h] = Ok (c1, sn1) /\ ask c1 (AskPoly s []) = Ok TTrue /\
    collect c (CollPoly s) [] [] = Ok l /\ ~ In (h_ent h) l.
Proof. exact collect_incomplete. Qed.
Print Assumptions C11_refuted.
(** what does hold: once collecting into the buffer appends nothing any more, every
    hazard that would be hit alone is in the buffer or ignored *)
Theorem C11_fixpoint_complete_partial :
  forall (F : Type) (N : Num F) (D : Type) (ED : EqD D) (BS : BSearch), bsearch_ok BS ->
  forall (bb : rect F) (depth n_cells : nat) (statics : list (hazard F D)) (ops : list (op F D))
    (c : cde F D) sn (k : collection F) (irr buf : list (entity D)),
  valid statics ops -> engine bb statics depth n_cells ops = Ok (c, sn) ->
  good_collection k -> inside_box bb k -> collect c k irr buf = Ok buf ->
  forall (h : hazard F D) c1 sn1, In h (cd_static c ++ cd_dyn c) -> ~ In (h_ent h) (buf ++ irr) ->
    engine bb [] depth 0 [OReg h] = Ok (c1, sn1) -> ask c1 (verdict_of k []) = Ok TFalse.
Proof. intros F N D ED BS Hb. exact (collect_fixpoint Hb). Qed.
Print Assumptions C11_fixpoint_complete_partial.
Example C11_example :
  collect (eng [exterior] 5 ops3) (CollPoly (box 3 3 12 12)) [PlacedItem 3 0] [PlacedItem 2 0; PlacedItem 1 0] =
    Ok [PlacedItem 2 0; PlacedItem 1 0].
Proof. exact ex_fixpoint. Qed.

(** *** C12: refuted outside the bounding box, true inside *)
Theorem C12_refuted :
  exists (statics : list (hazard Q nat)) (ops : list (op Q nat)) c sn (s : poly Q),
    valid statics ops /\ engine bin_box statics 4 0 ops = Ok (c, sn) /\ good_poly s /\
    ask c (AskPoly s []) = Ok TTrue /\ collect c (CollPoly s) [] [] = Ok [].
Proof. exact verdict_without_collision. Qed.
Print Assumptions C12_refuted.
Theorem C12_verdict_and_collection_partial :
  forall (F : Type) (N : Num F) (D : Type) (ED : EqD D) (BS : BSearch), bsearch_ok BS ->
  forall (bb : rect F) (depth n_cells : nat) (statics : list (hazard F D)) (ops : list (op F D))
    (c : cde F D) sn (k : collection F) (irr : list (entity D)),
  valid statics ops -> engine bb statics depth n_cells ops = Ok (c, sn) ->
  good_collection k -> inside_box bb k -> centre_inside bb k ->
  exists b l, ask c (verdict_of k irr) = Ok (yn b) /\ collect c k irr [] = Ok l /\ (b = true <-> l <> []).
Proof. intros F N D ED BS Hb. exact (verdict_collect Hb). Qed.
Print Assumptions C12_verdict_and_collection_partial.
Example C12_example :
  inside_box bin_box (CollPoly q_hit) /\
  ask (eng [exterior] 5 ops1) (AskPoly q_hit []) = Ok TTrue /\
  collect (eng [exterior] 5 ops1) (CollPoly q_hit) [] [] = Ok [PlacedItem 1 0] /\
  ask (eng [exterior] 5 ops1) (AskPoly q_hit [PlacedItem 1 0]) = Ok TFalse /\
  collect (eng [exterior] 5 ops1) (CollPoly q_hit) [PlacedItem 1 0] [] = Ok [].
Proof. exact ex_verdict. Qed.

(** *** C51: refuted; a hazard whose [active] flag is off is reported *)
Theorem C51_refuted :
  exists (statics : list (hazard Q nat)) (ops : list (op Q nat)) c sn (h : hazard Q nat) (e : edge Q),
    valid statics ops /\ engine bin_box statics 4 0 ops = Ok (c, sn) /\
    In h (cd_dyn c) /\ h_active h = false /\
    reported c (edge_query e) [] = Ok (Some (h_ent h)).
Proof. exact dormant_reported. Qed.
Print Assumptions C51_refuted.
