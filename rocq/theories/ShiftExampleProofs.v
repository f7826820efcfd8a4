(** Examples for the statements about moved coordinates. *)
From Coq Require Import List Bool Arith Lia.
From Verif Require Import Base Num GeoModel HazardModel QTModel TransfModel HpgModel CdeModel CdeSpec
  PolyModel ParserModel SimplModel SlotMapModel LayoutModel ProblemModel ProblemSpec LbfModel IoModel ParseModel
  BaseProofs Instances BaseProofs CdeHistProofs CdeOpsProofs CdeProofs CdeThmProofs CentreProofs CombProofs ConstructProofs FitProofs GeoPrimProofs HazVecProofs HpgRoomProofs LayoutProofs NoMaxProofs NormProofs ParityProofs ParsePierProofs ParseProofs ParseThmProofs PipProofs PlaceExampleProofs PoleProofs QTProofs RectPolyProofs RectSurrProofs RegionProofs RigidProofs SquareProofs StripBinProofs XformProofs  SimplExampleProofs LbfExampleProofs LbfExample2Proofs ParseProofs ParseThmProofs ParseReadProofs ParsePierProofs ParseExampleProofs ParseExample2Proofs ParseExample3Proofs ParseSideProofs RectPolyProofs NoMaxProofs ShiftProofs ShiftParseProofs ShiftBinProofs ShiftInstProofs.
From Coq Require Import Reals Lra.
From Verif Require Import GeoModel HazardModel QTModel TransfModel HpgModel CdeModel CdeSpec GeoSpec PlaceSpec HpgSpec ShapeSpec SimplSpec LbfModel LbfSpec IoModel IoSpec ParseModel ParseSpec ShiftSpec.
Import ListNotations.
Local Open Scope R_scope.
#[local] Existing Instance RTrig.

Definition box_outline (w h : R) : list (R * R) := [(0, 0); (w, 0); (w, h); (0, h); (0, 0)].
Lemma outline_read : forall M b, let N := RNumT Reqb M in let X := REx in forall w h d o q id, 0 < w -> 0 < h ->
  exists it pre, parse_item (box_parser b) (JI d o (JSimple (box_outline w h)) q) id = Ok (it, pre, d).
Proof.
  intros M b N X w h d o q id Hw Hh.
  destruct (rect_item M (box_parser b) (9 / 10) 1 w h d o q id Hw Hh eq_refl) as (it & pre & E & _). exists it, pre.
  rewrite <- E. unfold parse_item. cbn [ji_shape ji_orient ji_quality ji_demand solid_shape].
  assert (C : convert_poly (N := N) (box_parser b) Inflate (box_outline w h) = rect_shape (N := N) w h); [|rewrite C; reflexivity].
  unfold convert_poly. assert (J : json_points (N := N) (box_outline w h) = Ok [Pt 0 0; Pt w 0; Pt w h; Pt 0 h]).
  { unfold json_points. cbn [box_outline nth_error length Nat.pred expect rbind fst snd feq N RNumT]. unfold Reqb. destruct (Req_EM_T 0 0) as [_|Hn]; [reflexivity|congruence]. }
  rewrite J. cbn [rbind]. unfold rect_shape, poly_of_rect. cbn [x_min x_max y_min y_max pr_simpl box_parser].
  change (@f0 R N) with 0. destruct (poly_new _); reflexivity.
Qed.
(** the same rectangle at two places: read with centring it is one and the same item *)
Lemma outline_moved : forall M, let N := RNumT Reqb M in let X := REx in forall w h dx dy d o q id, 0 < w -> 0 < h ->
  exists it pre pre', parse_item (box_parser true) (JI d o (JSimple (box_outline w h)) q) id = Ok (it, pre, d) /\
    parse_item (box_parser true) (JI d o (JSimple (moved_vertices dx dy (box_outline w h))) q) id = Ok (it, pre', d) /\
    forall p, tr_point pre' (shifted dx dy p) = tr_point pre p.
Proof.
  intros M N X w h dx dy d o q id Hw Hh. destruct (outline_read M true w h d o q id Hw Hh) as (it & pre & E).
  destruct (centred_reads M (X := X) (box_parser true) dx dy eq_refl eq_refl _ _ _ _ _ _ _ _ E) as (pre' & E' & K). exists it, pre, pre'. auto.
Qed.

(** a rectangular bin at two places *)
Definition box_at (a b w h : R) : list (R * R) := [(a, b); (a + w, b); (a + w, b + h); (a, b + h); (a, b)].
Lemma box_at_read : forall M, let N := RNumT Reqb M in let ED := DtEq in let BS := LinSearch in let X := REx in
  forall umax a b w h cost stock id ptr, 0 < w -> 0 < h -> w <= 400 * h -> h <= 400 * w ->
  exists x, parse_bin umax (box_parser true) (JB cost stock (JSimple (box_at a b w h)) []) id ptr = Ok (x, match stock with Some n => n | None => umax end).
Proof.
  intros M N ED BS X umax a b w h cost stock id ptr Hw Hh R1 R2. subst N ED BS X. unfold parse_bin. cbn [jb_shape jb_zones jb_stock outer_shape hole_shapes rbind].
  assert (Ew : a < a + w) by lra. assert (Eh : b < b + h) by lra.
  destruct (rpts_new a b (a + w) (b + h) Ew Eh) as (s & E & P).
  assert (C : convert_poly (N := RNumT Reqb M) (box_parser true) Deflate (box_at a b w h) = Ok s).
  { unfold convert_poly. assert (J : json_points (N := RNumT Reqb M) (box_at a b w h) = Ok (rpts a b (a + w) (b + h))).
    { unfold json_points. cbn [box_at nth_error length Nat.pred expect rbind fst snd feq RNumT]. unfold Reqb. destruct (Req_EM_T a a) as [_|Hn]; [|congruence]. destruct (Req_EM_T b b) as [_|Hn]; [reflexivity|congruence]. }
    rewrite J. cbn [rbind pr_simpl box_parser].
    assert (E' : poly_new (N := RNumT Reqb M) (rpts a b (a + w) (b + h)) = Ok s) by exact (eq_trans (poly_new_M M _) E). rewrite E'. reflexivity. }
  rewrite C. cbn [rbind]. rewrite (empty_zones M (box_parser true)). cbn [rbind]. pose proof (proj1 (new_made _ _ E)) as Md.
  match goal with |- context [fresh_bin ?pr id s ?v ?pre [] _ ptr] => destruct (rect_fresh M LinSearch_ok pr a b w h s id v pre ptr Hw Hh R1 R2 Md P ltac:(discriminate)) as (e & ar & Ef); rewrite Ef end.
  cbn [rbind pr_center box_parser]. unfold pretransform_bin. cbn [bn_id bn_outer bn_value bn_pre bn_holes bn_zones a_obj map].
  set (c := centering_transformation (N := RNum) s). change (centering_transformation (N := RNumT Reqb M) s) with c.
  destruct (at_shift_tr (dt_tx c) (dt_ty c) s Md) as (A & B). change (DT 0 (dt_tx c) (dt_ty c)) with c in A, B.
  assert (A' : p_pts (tr_poly (N := RNumT Reqb M) (compose (N := RNumT Reqb M) c) s) = rpts (a + dt_tx c) (b + dt_ty c) (a + dt_tx c + w) (b + dt_ty c + h)).
  { etransitivity; [exact A|]. rewrite P. unfold rpts. cbn [map]. unfold shifted. cbn [px py]. repeat (apply f_equal2; [apply pt_ext; cbn [px py]; lra|]). reflexivity. }
  match goal with |- context [fresh_bin ?pr id _ ?v ?pre [] ?zs ?p] => destruct (rect_fresh M LinSearch_ok pr _ _ w h _ id v pre p Hw Hh R1 R2 B A' ltac:(discriminate)) as (e' & ar' & Ef'); change zs with (map (fun q => (q, @nil (poly R))) (seq 0 10)) end.
  assert (Ef2 := Ef'). change (@compose R RNum RTrig) with (@compose R (RNumT Reqb M) RTrig) in Ef2. change (@tr_poly R RNum) with (@tr_poly R (RNumT Reqb M)) in Ef2. rewrite Ef2. cbn [rbind]. eauto.
Qed.
Lemma bin_two_places : forall M, let N := RNumT Reqb M in let ED := DtEq in let BS := LinSearch in let X := REx in
  forall umax a b dx dy w h cost stock id ptr, 0 < w -> 0 < h -> w <= 400 * h -> h <= 400 * w -> let j := JB cost stock (JSimple (box_at a b w h)) [] in
  bin_by_vertices j /\ exists x x' n, parse_bin umax (box_parser true) j id ptr = Ok (x, n) /\ parse_bin umax (box_parser true) (moved_bin dx dy j) id ptr = Ok (x', n).
Proof.
  intros M N ED BS X umax a b dx dy w h cost stock id ptr Hw Hh R1 R2 j. split; [split; [exact Logic.I|constructor]|].
  destruct (box_at_read M umax a b w h cost stock id ptr Hw Hh R1 R2) as (x & E).
  destruct (box_at_read M umax (a + dx) (b + dy) w h cost stock id ptr Hw Hh R1 R2) as (x' & E').
  exists x, x', (match stock with Some n => n | None => umax end). split; [exact E|].
  replace (moved_bin dx dy j) with (JB cost stock (JSimple (box_at (a + dx) (b + dy) w h)) []); [exact E'|].
  unfold j, moved_bin. cbn [jb_cost jb_stock jb_shape jb_zones moved_shape map]. do 2 f_equal. unfold box_at, moved_vertices. cbn [map fst snd].
  repeat (apply f_equal2; [f_equal; ring|]). reflexivity.
Qed.
(** a trapeze, simplified to a triangle wherever it lies *)
Lemma trapeze_moved : forall M, let N := RNumT Reqb M in let X := REx in forall dx dy id, exists it,
  parse_item slack_parser (JI 3 (Some [0; 90]) (JSimple jtrapeze) None) id = Ok (it, t_empty, 3%nat) /\
  parse_item slack_parser (JI 3 (Some [0; 90]) (JSimple (moved_vertices dx dy jtrapeze)) None) id = Ok (moved_item dx dy it, t_empty, 3%nat).
Proof.
  intros M N X dx dy id. destruct (slack_first M id) as (it & E & _). exists it. split; [exact E|].
  assert (K := item_moved M (X := X) slack_parser dx dy eq_refl eq_refl 3 (Some [0; 90]) jtrapeze None id).
  etransitivity; [exact K|].
  assert (E' : parse_item (N := RNumT Reqb M) (X := X) slack_parser (JI 3 (Some [0; 90]) (JSimple jtrapeze) None) id = Ok (it, t_empty (N := RNumT Reqb M), 3%nat)) by exact E.
  rewrite E'. reflexivity.
Qed.
(** a file with an outline, wherever the outline lies *)
Lemma outline_is_rect : forall M b, let N := RNumT Reqb M in let X := REx in forall w h d o q id,
  parse_item (box_parser b) (JI d o (JSimple (box_outline w h)) q) id = parse_item (box_parser b) (JI d o (JRect w h) q) id.
Proof.
  intros M b N X w h d o q id. unfold parse_item. cbn [ji_shape ji_orient ji_quality ji_demand solid_shape].
  assert (C : convert_poly (N := N) (box_parser b) Inflate (box_outline w h) = rect_shape (N := N) w h); [|rewrite C; reflexivity].
  unfold convert_poly. assert (J : json_points (N := N) (box_outline w h) = Ok [Pt 0 0; Pt w 0; Pt w h; Pt 0 h]).
  { unfold json_points. cbn [box_outline nth_error length Nat.pred expect rbind fst snd feq N RNumT]. unfold Reqb. destruct (Req_EM_T 0 0) as [_|Hn]; [reflexivity|congruence]. }
  rewrite J. cbn [rbind]. unfold rect_shape, poly_of_rect. cbn [x_min x_max y_min y_max pr_simpl box_parser].
  change (@f0 R N) with 0. destruct (poly_new _); reflexivity.
Qed.
Definition outline_items : list (jitem R) := [JI 3 (Some [0; 90]) (JSimple (box_outline 2 1)) None; JI 1 None (JRect 1 1) None].
Lemma outline_file : forall M, let N := RNumT Reqb M in let ED := DtEq in let BS := LinSearch in let X := REx in forall umax dx dy, let vs := [(dx, dy); (0, 0)] in
  Forall (fun p => movable (fst p) (snd p)) (combine vs outline_items) /\
  exists inst pres pres', parse umax (box_parser true) (JIn outline_items (Some some_bins) None) 0 = Ok (inst, pres) /\
    parse umax (box_parser true) (JIn (items_at vs outline_items) (Some some_bins) None) 0 = Ok (inst, pres').
Proof.
  intros M N ED BS X umax dx dy vs.
  assert (Fm : Forall (fun p => movable (fst p) (snd p)) (combine vs outline_items)).
  { constructor; [left; exact Logic.I|]. constructor; [right; reflexivity|constructor]. }
  split; [exact Fm|].
  destruct (box_file M (X := X) LinSearch_ok umax (box_parser true) (9 / 10) 1 eq_refl [JI 3 (Some [0; 90]) (JRect 2 1) None; JI 1 None (JRect 1 1) None] some_bins 0) as (inst & pres & E).
  - discriminate.
  - constructor; [exists 2, 1; repeat split; lra|]. constructor; [exists 1, 1; repeat split; lra|constructor].
  - exact (proj2 some_boxes).
  - assert (E' : parse umax (box_parser true) (JIn outline_items (Some some_bins) None) 0 = Ok (IBP inst, pres)).
    { rewrite <- E. unfold parse. cbn [jn_items jn_bins jn_strip outline_items length seq combine rmapM fst snd].
      assert (Q := outline_is_rect M true 2 1 3 (Some [0; 90]) None 0). cbv zeta in Q. unfold N, X. rewrite Q. reflexivity. }
    destruct (instance_anywhere M (X := X) umax (box_parser true) eq_refl eq_refl outline_items (Some some_bins) None vs 0 (IBP inst) pres eq_refl Fm E') as (pres' & E2 & _).
    exists (IBP inst), pres, pres'. split; [exact E'|exact E2].
Qed.
