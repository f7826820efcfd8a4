(** Statements about the whole program [lbf]: C76.  Vocabulary: MainSpec.v, ParseSpec.v,
    SvgSpec.v.  Exact arithmetic; for every random generator. *)
From Verif Require Import Base Num GeoModel HazardModel QTModel TransfModel PolyModel HpgModel CdeModel LayoutModel ProblemModel ProblemSpec ParserModel SimplModel LbfModel IoModel ParseModel SvgModel MainModel
  Instances LbfExampleProofs LbfExample2Proofs ParseExample2Proofs MainProofs MainRectProofs MainExampleProofs.
From Coq Require Import Reals List.
From Verif Require Import GeoModel HazardModel QTModel TransfModel HpgModel CdeModel CdeSpec GeoSpec PlaceSpec HpgSpec ShapeSpec SimplSpec
  ProblemModel LbfModel LbfSpec IoModel IoSpec ParseModel ParseSpec SvgModel SvgSpec MainModel MainSpec.
Import ListNotations.
Local Open Scope R_scope.
#[local] Existing Instance RTrig.

(** *** C76: what the program leaves behind *)
(** Bin packing.  Either nothing is written, or first the solution file, with the instance
    and the configuration as they were given and a packing of the polygons of the file, and
    then the drawings of its first layouts, in order; of all of them if there is no panic. *)
Theorem C76_bins :
  forall (M : R) (X : Extra R) (ED : EqD (dtransf R)) (BS : BSearch) (G : Type) (RG : Rng R G), bsearch_ok BS -> @fPI R X = PI ->
  forall umax piers tl fuel (c : main_cfg R), match mc_tol c with Some t => 0 <= t < 1 | None => True end -> let N := RNumT Reqb M in
  forall j bs, jn_bins j = Some bs -> simple_items (map file_item (jn_items j)) -> simple_bins (map file_bin bs) ->
  forall (g : G) p1 p2 p3 files e, program umax piers tl fuel c j g p1 p2 p3 = (files, e) ->
  (files = [] /\ e = Aborted) \/
  exists js ds, files = FSol j js c :: drawings ds /\
    (length ds <= length (js_layouts js))%nat /\ (e = Done <-> length ds = length (js_layouts js)) /\ e <> Unfinished /\
    Forall (fun l => exists k jb, jl_container l = JBin k /\ nth_error bs k = Some jb /\
      packs (map file_item (jn_items j)) (file_bin jb) (jl_items l) /\ jl_items l <> []) (js_layouts js) /\
    (forall i ji, nth_error (jn_items j) i = Some ji -> (item_copies i (js_layouts js) <= ji_demand ji)%nat) /\
    (forall b jb n, nth_error bs b = Some jb -> jb_stock jb = Some n -> (bins_used b (js_layouts js) <= n)%nat) /\
    exists fs cs, Forall2 (item_of_file (mc_tol c)) (jn_items j) fs /\ Forall2 (bin_of_file (mc_tol c)) bs cs /\
      Forall2 (fun d l => exists k b, jl_container l = JBin k /\ nth_error cs k = Some b /\ pictures fs b (jl_items l) d)
        ds (firstn (length ds) (js_layouts js)).
Proof. intros M X ED BS G RG Hb Ep umax piers tl fuel c Ht N. exact (writes_bins M Hb Ep umax piers tl fuel c Ht). Qed.
Print Assumptions C76_bins.
(** Strip packing: every copy is placed; the drawing may be missing. *)
Theorem C76_strip :
  forall (M : R) (X : Extra R) (ED : EqD (dtransf R)) (BS : BSearch) (G : Type) (RG : Rng R G), bsearch_ok BS -> @fPI R X = PI ->
  forall umax piers tl fuel (c : main_cfg R), match mc_tol c with Some t => 0 <= t < 1 | None => True end -> let N := RNumT Reqb M in
  forall j hgt, 0 <= tl -> jn_strip j = Some hgt -> 0 < hgt -> simple_items (map file_item (jn_items j)) ->
  forall (g : G) p1 p2 p3 files e, program umax piers tl fuel c j g p1 p2 p3 = (files, e) ->
  (files = [] /\ e <> Done) \/
  exists w pl u us ds, files = FSol j (JS us [JL (JStrip w hgt) pl u]) c :: drawings ds /\ 0 < w /\
    (e = Done /\ length ds = 1%nat \/ e = Aborted /\ ds = []) /\
    packing (map file_item (jn_items j)) (strip_outline w hgt) [] [] pl /\
    (forall i ji, nth_error (jn_items j) i = Some ji -> length (filter (Nat.eqb i) (map fst pl)) = ji_demand ji) /\
    exists fs, Forall2 (item_of_file (mc_tol c)) (jn_items j) fs /\
      (clean_items fs -> Forall (pictures fs (FB (strip_outline w hgt) [] []) pl) ds).
Proof. intros M X ED BS G RG Hb Ep umax piers tl fuel c Ht N. exact (writes_strip M Hb Ep umax piers tl fuel c Ht). Qed.
Print Assumptions C76_strip.
(** Without simplification: if the file can be read, everything is written. *)
Theorem C76_bins_done :
  forall (M : R) (X : Extra R) (ED : EqD (dtransf R)) (BS : BSearch) (G : Type) (RG : Rng R G), bsearch_ok BS -> @fPI R X = PI -> sane_extra X ->
  forall umax piers tl fuel (c : main_cfg R), let N := RNumT Reqb M in
  forall j p1 bs, runs c -> mc_tol c = None -> (exists x, parse umax (main_parser piers c) j p1 = Ok x) -> jn_bins j = Some bs ->
  Forall (tame M) (map file_item (jn_items j)) -> (forall ji q, In ji (jn_items j) -> ji_quality ji = Some q -> (q < 10)%nat) ->
  clean_bins (map file_bin bs) ->
  forall (g : G) p2 p3, exists files, program umax piers tl fuel c j g p1 p2 p3 = (files, Done).
Proof.
  intros M X ED BS G RG Hb Ep Hx umax piers tl fuel c N j p1 bs R0 Hs.
  exact (bins_done M Hb Ep umax piers tl fuel c ltac:(rewrite Hs; exact I) Hx j p1 bs R0 Hs).
Qed.
Print Assumptions C76_bins_done.
(** Files of rectangles, surrogates of one pole, with or without simplification: the program
    always ends, without a panic, and leaves a packing of the file and its drawings. *)
Theorem C76_rectangles :
  forall (M : R) (X : Extra R) (ED : EqD (dtransf R)) (BS : BSearch) (G : Type) (RG : Rng R G), bsearch_ok BS -> @fPI R X = PI -> sane_extra X ->
  forall umax piers tl fuel (c : main_cfg R), match mc_tol c with Some t => 0 <= t < 1 | None => True end -> let N := RNumT Reqb M in
  forall goal nff items bs, runs c -> mc_surr c = SC goal 1 nff 0 -> Forall (rect_item M) items -> Forall rect_bin bs ->
  let j := JIn items (Some bs) None in
  forall (g : G) p1 p2 p3, exists js ds, program umax piers tl fuel c j g p1 p2 p3 = (FSol j js c :: drawings ds, Done) /\
    Forall (fun l => exists k jb, jl_container l = JBin k /\ nth_error bs k = Some jb /\
      packs (map file_item items) (file_bin jb) (jl_items l) /\ jl_items l <> []) (js_layouts js) /\
    (forall i ji, nth_error items i = Some ji -> (item_copies i (js_layouts js) <= ji_demand ji)%nat) /\
    (forall b jb n, nth_error bs b = Some jb -> jb_stock jb = Some n -> (bins_used b (js_layouts js) <= n)%nat) /\
    exists fs cs, Forall2 (item_of_file None) items fs /\ Forall2 (bin_of_file None) bs cs /\
      Forall2 (fun d l => exists k b, jl_container l = JBin k /\ nth_error cs k = Some b /\ pictures fs b (jl_items l) d) ds (js_layouts js).
Proof. intros M X ED BS G RG Hb Ep Hx umax piers tl fuel c Ht N. exact (rect_correct M Hb Ep Hx umax piers tl fuel c Ht). Qed.
Print Assumptions C76_rectangles.
Theorem C76_rectangles_strip :
  forall (M : R) (X : Extra R) (ED : EqD (dtransf R)) (BS : BSearch) (G : Type) (RG : Rng R G), bsearch_ok BS -> @fPI R X = PI -> sane_extra X ->
  forall umax piers tl fuel (c : main_cfg R), match mc_tol c with Some t => 0 <= t < 1 | None => True end -> let N := RNumT Reqb M in
  forall goal nff items hgt, runs c -> 0 < tl -> mc_surr c = SC goal 1 nff 0 -> Forall (rect_item M) items ->
  (exists ji, In ji items /\ (0 < ji_demand ji)%nat) -> 0 < hgt -> strips_constructible (mc_cde c) hgt ->
  forall (g : G) p1 p2 p3, exists files e, program umax piers tl fuel c (JIn items None (Some hgt)) g p1 p2 p3 = (files, e) /\ e <> Aborted.
Proof. intros M X ED BS G RG Hb Ep Hx umax piers tl fuel c Ht N. exact (rect_strip_done M Hb Ep umax piers tl fuel c Ht Hx). Qed.
Print Assumptions C76_rectangles_strip.
(** With an item whose quality has no colour (C71) no drawing is ever written; the solution
    file is. *)
Theorem C76_no_drawings :
  forall (M : R) (X : Extra R) (ED : EqD (dtransf R)) (BS : BSearch) (G : Type) (RG : Rng R G), @fPI R X = PI ->
  forall umax piers tl fuel (c : main_cfg R), match mc_tol c with Some t => 0 <= t < 1 | None => True end -> let N := RNumT Reqb M in
  forall j bs ji q, jn_bins j = Some bs -> In ji (jn_items j) -> ji_quality ji = Some q -> (length (th_zones (do_theme (mc_draw c))) <= q)%nat ->
  forall (g : G) p1 p2 p3 files e, program umax piers tl fuel c j g p1 p2 p3 = (files, e) ->
  (files = [] /\ e = Aborted) \/ exists js, files = [FSol j js c] /\ (e = Done <-> js_layouts js = []) /\ e <> Unfinished.
Proof. intros M X ED BS G RG Ep umax piers tl fuel c Ht N. exact (no_drawings M Ep umax piers tl fuel c Ht). Qed.
Print Assumptions C76_no_drawings.
(** a configuration and files that meet the conditions *)
Example C76_example : forall M, 2 < M -> let N := RNumT Reqb M in let ED := DtEq in let BS := LinSearch in
  bsearch_ok LinSearch /\ @fPI R REx = PI /\ sane_extra REx /\ runs some_cfg /\ mc_surr some_cfg = SC (9 / 10) 1 2 0 /\ mc_tol some_cfg = Some (/ 1000) /\
  Forall (rect_item M) some_items /\ Forall rect_bin some_bins /\ strips_constructible (mc_cde some_cfg) 4.
Proof. exact example. Qed.
