(** Statements about the drawings of solutions: C70, C71 and C72.  Vocabulary: SvgSpec.v.
    [made_by]: the solution was created by a history of placements and removals, or by the
    optimizer. *)
From Verif Require Import Base Num GeoModel HazardModel QTModel TransfModel PolyModel HpgModel CdeModel LayoutModel ProblemModel ProblemSpec SimplModel LbfModel IoModel ParseModel SvgModel
  Instances LbfExampleProofs LbfExample2Proofs ParseExample2Proofs SvgThmProofs SvgAllProofs SvgTreeThmProofs SvgRefuteProofs ColorModel ColorProofs.
From Coq Require Import Reals List.
From Verif Require Import GeoModel HazardModel QTModel TransfModel HpgModel CdeModel CdeSpec GeoSpec PlaceSpec HpgSpec ShapeSpec SimplSpec
  ProblemModel LbfModel LbfSpec IoModel IoSpec ParseModel ParseSpec SvgModel SvgSpec.
Import ListNotations.
Local Open Scope R_scope.
#[local] Existing Instance RTrig.

(** *** C70: the drawings show what the solution file says *)
(** bins: for solutions created by any history, also where items overlap *)
Theorem C70_bins :
  forall (M : R) (X : Extra R) (ED : EqD (dtransf R)) (BS : BSearch) (G : Type) (RG : Rng R G),
  forall umax (pr : parser R), match pr_simpl pr with Some t => 0 <= t | None => True end -> @fPI R X = PI -> let N := RNumT Reqb M in
  forall j ptr inst pres, parse umax pr j ptr = Ok (IBP inst, pres) ->
  exists bs fs cs, jn_bins j = Some bs /\ Forall2 (item_of_file (pr_simpl pr)) (jn_items j) fs /\ Forall2 (bin_of_file (pr_simpl pr)) bs cs /\
    forall s, (exists ovf ops p h, bp_run ovf inst ops = Ok (p, h) /\ In s h) \/ (exists cfg (g : G) ptr p p', lbf_bp inst cfg g ptr = Ok (p, s, p')) ->
    forall o ptr' docs, draw_solution pr (pre_of pres) (bi_items inst) o s ptr' = Ok docs ->
    exists js, bp_export (pre_of pres) inst s = Ok js /\
    Forall2 (fun d l => exists k c, jl_container l = JBin k /\ nth_error cs k = Some c /\ pictures fs c (jl_items l) d) docs (js_layouts js).
Proof. intros M X ED BS G RG umax pr Ht Ep N. exact (pictures_bins M umax pr Ht Ep). Qed.
Print Assumptions C70_bins.
Theorem C70_strip :
  forall (M : R) (X : Extra R) (ED : EqD (dtransf R)) (BS : BSearch) (G : Type) (RG : Rng R G), bsearch_ok BS ->
  forall umax (pr : parser R), match pr_simpl pr with Some t => 0 <= t | None => True end -> @fPI R X = PI -> let N := RNumT Reqb M in
  forall j ptr inst pres, parse umax pr j ptr = Ok (ISP inst, pres) ->
  exists hgt fs, jn_strip j = Some hgt /\ Forall2 (item_of_file (pr_simpl pr)) (jn_items j) fs /\
    (clean_items fs -> 0 < hgt -> forall fuel tl c cfg (g : G) ptr' p s p', 0 <= tl -> lbf_sp fuel tl inst c cfg g ptr' = Ok (Some (p, s, p')) ->
     forall o ptr'' docs, draw_solution pr (pre_of pres) (si_items inst) o s ptr'' = Ok docs ->
     exists w pl u us d, sp_export (pre_of pres) inst s = Ok (JS us [JL (JStrip w hgt) pl u]) /\ docs = [d] /\ pictures fs (FB (strip_outline w hgt) [] []) pl d).
Proof. intros M X ED BS G RG Hb umax pr Ht Ep N. exact (pictures_strip M Hb umax pr Ht Ep). Qed.
Print Assumptions C70_strip.

(** *** C71: what has been solved can be drawn *)
(** with all overlays; qualities below ten, the number of colours *)
Theorem C71_bins_partial :
  forall (M : R) (X : Extra R) (ED : EqD (dtransf R)) (BS : BSearch) (G : Type) (RG : Rng R G), bsearch_ok BS ->
  forall umax (pr : parser R), match pr_simpl pr with Some t => 0 <= t | None => True end -> @fPI R X = PI -> let N := RNumT Reqb M in
  forall j ptr inst pres, parse umax pr j ptr = Ok (IBP inst, pres) ->
  exists bs fs cs, jn_bins j = Some bs /\ Forall2 (item_of_file (pr_simpl pr)) (jn_items j) fs /\ Forall2 (bin_of_file (pr_simpl pr)) bs cs /\
    (clean_items fs -> clean_bins cs -> (forall f, In f fs -> match fi_quality f with Some q => (q < 10)%nat | None => True end) ->
     forall s, made_by M (RG := RG) inst s -> forall o ptr', length (th_zones (do_theme o)) = 10%nat -> (do_grid o = true -> cfg_cells (pr_cfg pr) <> 0%nat) ->
     exists docs, draw_solution pr (pre_of pres) (bi_items inst) o s ptr' = Ok docs).
Proof. intros M X ED BS G RG Hb umax pr Ht Ep N. exact (SvgAllProofs.drawn_bins M Hb umax pr Ht Ep). Qed.
Print Assumptions C71_bins_partial.
Theorem C71_strip_partial :
  forall (M : R) (X : Extra R) (ED : EqD (dtransf R)) (BS : BSearch) (G : Type) (RG : Rng R G), bsearch_ok BS ->
  forall umax (pr : parser R), match pr_simpl pr with Some t => 0 <= t | None => True end -> @fPI R X = PI -> let N := RNumT Reqb M in
  forall j ptr inst pres, parse umax pr j ptr = Ok (ISP inst, pres) ->
  exists hgt fs, jn_strip j = Some hgt /\ Forall2 (item_of_file (pr_simpl pr)) (jn_items j) fs /\
    (clean_items fs -> (forall f, In f fs -> match fi_quality f with Some q => (q < 10)%nat | None => True end) ->
     forall fuel tl c cfg (g : G) ptr' p s p', 0 <= tl -> lbf_sp fuel tl inst c cfg g ptr' = Ok (Some (p, s, p')) ->
     forall o ptr'', length (th_zones (do_theme o)) = 10%nat -> (do_grid o = true -> cfg_cells c <> 0%nat) ->
     exists docs, draw_solution pr (pre_of pres) (si_items inst) o s ptr'' = Ok docs).
Proof. intros M X ED BS G RG Hb umax pr Ht Ep N. exact (SvgAllProofs.drawn_strip M Hb umax pr Ht Ep). Qed.
Print Assumptions C71_strip_partial.
(** One item of the instance with a quality without colour, placed or not, and nothing is
    drawn, in any arithmetic: *)
Theorem C71_quality_panics :
  forall (F : Type) (N : Num F) (T : Trig F) (ED : EqD (dtransf F)) (BS : BSearch) (X : Extra F) (pr : parser F) pre (items : list (item F * nat)) o (s : solution F (dtransf F)) ptr docs it q k,
  In (it, k) items -> it_quality it = Some q -> (length (th_zones (do_theme o)) <= q)%nat -> so_layouts s <> [] -> draw_solution pr pre items o s ptr <> Ok docs.
Proof. intros F N T ED BS X. exact quality_undrawn. Qed.
Print Assumptions C71_quality_panics.
(** such an instance is read and solved. *)
Theorem C71_solved_is_drawn_refuted : forall M, 2 < M -> let N := RNumT Reqb M in let ED := DtEq in let BS := LinSearch in let X := REx in
  forall (G : Type) (RG : Rng R G) umax c, exists j inst pres s, parse umax (box_parser c) j 0 = Ok (IBP inst, pres) /\
    (forall cfg (g : G) ptr, (0 < lc_samples cfg)%nat -> (lc_local cfg <= lc_samples cfg)%nat -> exists p s p', lbf_bp inst cfg g ptr = Ok (p, s, p')) /\
    made_by M (RG := RG) inst s /\ forall o ptr, length (th_zones (do_theme o)) = 10%nat -> draw_solution (box_parser c) (pre_of pres) (bi_items inst) o s ptr = Panic.
Proof. intros M HM N ED BS X G RG. exact (quality_refuted M HM). Qed.
Print Assumptions C71_solved_is_drawn_refuted.
(** a solution of a file of rectangles and its drawing, with all overlays *)
Example C71_example : forall M, 2 < M -> let N := RNumT Reqb M in let ED := DtEq in let BS := LinSearch in let X := REx in
  forall (G : Type) (RG : Rng R G) umax c (d : dtransf R) th, length (th_zones th) = 10%nat -> exists inst pres s docs, parse umax (box_parser c) (JIn some_items (Some some_bins) None) 0 = Ok (IBP inst, pres) /\
    made_by M (RG := RG) inst s /\ draw_solution (box_parser c) (pre_of pres) (bi_items inst) (DO th true true true) s 0 = Ok docs /\ length docs = 1%nat.
Proof. intros M HM N ED BS X G RG. exact (drawing_example M HM). Qed.

(** *** C72: the quadtree overlay tells what is free *)
Theorem C72_bins :
  forall (M : R) (X : Extra R) (ED : EqD (dtransf R)) (BS : BSearch) (G : Type) (RG : Rng R G), bsearch_ok BS ->
  forall umax (pr : parser R), match pr_simpl pr with Some t => 0 <= t | None => True end -> @fPI R X = PI -> let N := RNumT Reqb M in
  forall j ptr inst pres, parse umax pr j ptr = Ok (IBP inst, pres) ->
  exists bs fs cs, jn_bins j = Some bs /\ Forall2 (item_of_file (pr_simpl pr)) (jn_items j) fs /\ Forall2 (bin_of_file (pr_simpl pr)) bs cs /\
    (clean_items fs -> clean_bins cs -> forall s, made_by M (RG := RG) inst s ->
     forall o ptr' docs, do_tree o = true -> draw_solution pr (pre_of pres) (bi_items inst) o s ptr' = Ok docs ->
     exists js, bp_export (pre_of pres) inst s = Ok js /\
     Forall2 (fun d l => exists k c a eh ph nh, jl_container l = JBin k /\ nth_error cs k = Some c /\ sv_tree d = Some (a, (eh, ph, nh)) /\
       tree_shown (cfg_depth (pr_cfg pr)) fs c (jl_items l) a eh ph nh) docs (js_layouts js)).
Proof. intros M X ED BS G RG Hb umax pr Ht Ep N. exact (tree_bins M Hb umax pr Ht Ep). Qed.
Print Assumptions C72_bins.
Theorem C72_strip :
  forall (M : R) (X : Extra R) (ED : EqD (dtransf R)) (BS : BSearch) (G : Type) (RG : Rng R G), bsearch_ok BS ->
  forall umax (pr : parser R), match pr_simpl pr with Some t => 0 <= t | None => True end -> @fPI R X = PI -> let N := RNumT Reqb M in
  forall j ptr inst pres, parse umax pr j ptr = Ok (ISP inst, pres) ->
  exists hgt fs, jn_strip j = Some hgt /\ Forall2 (item_of_file (pr_simpl pr)) (jn_items j) fs /\
    (clean_items fs -> 0 < hgt -> forall fuel tl c cfg (g : G) ptr' p s p', 0 <= tl -> lbf_sp fuel tl inst c cfg g ptr' = Ok (Some (p, s, p')) ->
     forall o ptr'' docs, do_tree o = true -> draw_solution pr (pre_of pres) (si_items inst) o s ptr'' = Ok docs ->
     exists w pl u us d a eh ph nh, sp_export (pre_of pres) inst s = Ok (JS us [JL (JStrip w hgt) pl u]) /\ docs = [d] /\ sv_tree d = Some (a, (eh, ph, nh)) /\
       tree_shown (cfg_depth c) fs (FB (strip_outline w hgt) [] []) pl a eh ph nh).
Proof. intros M X ED BS G RG Hb umax pr Ht Ep N. exact (tree_strip M Hb umax pr Ht Ep). Qed.
Print Assumptions C72_strip.
(** C71_example is also a case for C70_bins and C72_bins. *)

(** *** C73: colours survive being written and read *)
Theorem C73_round_trip : forall c, (c_red c < 256 /\ c_green c < 256 /\ c_blue c < 256)%nat -> color_of (color_text c) = Ok c.
Proof. exact color_round. Qed.
Print Assumptions C73_round_trip.
(** whatever text is read as a colour: the colour fits in three bytes, and its own text is
    read as the same colour *)
Theorem C73_read_write_read : forall s c, color_of s = Ok c -> (c_red c < 256 /\ c_green c < 256 /\ c_blue c < 256)%nat /\ color_of (color_text c) = Ok c.
Proof. exact (fun s c H => conj (color_bytes s c H) (color_stable s c H)). Qed.
Print Assumptions C73_read_write_read.
Theorem C73_blend : forall a b, (c_red a < 256 /\ c_green a < 256 /\ c_blue a < 256)%nat -> (c_red b < 256 /\ c_green b < 256 /\ c_blue b < 256)%nat ->
  (c_red (blend_colors a b) < 256 /\ c_green (blend_colors a b) < 256 /\ c_blue (blend_colors a b) < 256)%nat.
Proof. exact blend_bytes. Qed.
Print Assumptions C73_blend.
Example C73_example : color_of [35; 70; 102; 48; 48; 57; 65; 33]%nat = Ok (Rgb 255 0 154).
Proof. reflexivity. Qed.
(** Not only hexadecimal digits are read: a plus sign may take the place of a digit. *)
Theorem C73_only_digits_refuted : exists s c, color_of s = Ok c /\ exists b, nth_error s 1 = Some b /\ to_digit b = None.
Proof. exact plus_accepted. Qed.
Print Assumptions C73_only_digits_refuted.
