(** Building polygons commutes with moving them (exact arithmetic). *)
From Coq Require Import List Bool Arith Lia.
From Verif Require Import Base Num GeoModel HazardModel TransfModel PolyModel HpgModel CdeModel LayoutModel IoModel ParseModel
  BaseProofs ParityProofs RigidProofs NormProofs.
From Coq Require Import Reals Lra.
From Verif Require Import GeoModel HazardModel TransfModel PolyModel GeoSpec ShapeSpec ParseModel ShiftSpec.
Import ListNotations.
Local Open Scope R_scope.
#[local] Existing Instance RNum.

Lemma lt_sh : forall d x y, Rltb (x + d) (y + d) = Rltb x y.
Proof. intros d x y. rdestr (x + d) (y + d); rdestr x y; try reflexivity; lra. Qed.
Lemma le_sh : forall d x y, Rleb (x + d) (y + d) = Rleb x y.
Proof. intros d x y. unfold Rleb. destruct (Rle_dec (x + d) (y + d)), (Rle_dec x y); try reflexivity; lra. Qed.
Lemma eq_sh : forall d x y, Reqb (x + d) (y + d) = Reqb x y.
Proof. intros d x y. unfold Reqb. destruct (Req_EM_T (x + d) (y + d)), (Req_EM_T x y); try reflexivity; lra. Qed.
Lemma sub_sh : forall d x y, (x + d) - (y + d) = x - y.
Proof. intros. ring. Qed.
Lemma min_sh : forall d x y, Rmin (x + d) (y + d) = Rmin x y + d.
Proof. intros d x y. unfold Rmin. destruct (Rle_dec (x + d) (y + d)), (Rle_dec x y); lra. Qed.
Lemma max_sh : forall d x y, Rmax (x + d) (y + d) = Rmax x y + d.
Proof. intros d x y. unfold Rmax. destruct (Rle_dec (x + d) (y + d)), (Rle_dec x y); lra. Qed.
Lemma half_sh : forall d x y, (x + d + (y + d)) / (1 + 1) = (x + y) / (1 + 1) + d.
Proof. intros. field. Qed.

Lemma rmapM_shift : forall {A B A' B'} (f : A -> res B) (f' : A' -> res B') (g : A -> A') (h : B -> B') l,
  (forall x, f' (g x) = rmap h (f x)) -> rmapM f' (map g l) = rmap (map h) (rmapM f l).
Proof.
  intros A B A' B' f f' g h l H. induction l as [|x l IH]; [reflexivity|]. cbn [map rmapM]. rewrite H.
  destruct (f x) as [y|]; [|reflexivity]. cbn [rmap rbind]. rewrite IH. destruct (rmapM f l); reflexivity.
Qed.
Lemma rmapM_same : forall {A B} (f g : A -> res B) l, (forall x, In x l -> f x = g x) -> rmapM f l = rmapM g l.
Proof.
  intros A B f g l H. induction l as [|x l IH]; [reflexivity|]. cbn [rmapM]. rewrite (H x (or_introl eq_refl)), IH; [reflexivity|]. intros y Hy. apply H. right. exact Hy.
Qed.
Lemma rfold_same : forall {A B} (f g : A -> B -> res A) l a, (forall a x, f a x = g a x) -> rfold f l a = rfold g l a.
Proof. intros A B f g l. induction l as [|x l IH]; intros a H; [reflexivity|]. cbn [rfold]. rewrite H. destruct (g a x); [|reflexivity]. cbn [rbind]. apply IH. exact H. Qed.
Lemma rfold_shift : forall {A A' B B'} (f : A -> B -> res A) (f' : A' -> B' -> res A') (g : A -> A') (h : B -> B') l a,
  (forall a x, f' (g a) (h x) = rmap g (f a x)) -> rfold f' (map h l) (g a) = rmap g (rfold f l a).
Proof.
  intros A A' B B' f f' g h l. induction l as [|x l IH]; intros a H; [reflexivity|]. cbn [map rfold]. rewrite H.
  destruct (f a x) as [y|]; [|reflexivity]. cbn [rmap rbind]. apply IH. exact H.
Qed.

Section S.
  Variables dx dy : R.
  Local Notation Sp := (shifted dx dy).
  Local Notation Sr := (moved_rect dx dy).
  Local Notation Sc := (moved_circle dx dy).
  Local Notation Se := (moved_edge dx dy).
  Local Notation Ss := (moved_poly dx dy).

  Ltac un := cbn [fadd fsub fmul fdiv fneg fabs fmin fmax fle flt feq fsqrt falmost f0 f1 RNum RNumT] in *.
  Lemma sh_eq : forall a b, pt_eq (Sp a) (Sp b) = pt_eq a b.
  Proof. intros a b. unfold pt_eq, shifted. cbn [px py]. un. rewrite !eq_sh. reflexivity. Qed.
  Lemma sh_sqdist : forall a b, pt_sqdist (Sp a) (Sp b) = pt_sqdist a b.
  Proof. intros a b. unfold pt_sqdist, shifted, fsq. cbn [px py]. un. rewrite !sub_sh. reflexivity. Qed.
  Lemma sh_dist : forall a b, pt_dist (Sp a) (Sp b) = pt_dist a b.
  Proof. intros a b. unfold pt_dist. rewrite sh_sqdist. reflexivity. Qed.
  Lemma sh_edge_new : forall a b, edge_new (Sp a) (Sp b) = rmap Se (edge_new a b).
  Proof. intros a b. unfold edge_new. rewrite sh_eq. destruct (pt_eq a b); reflexivity. Qed.
  Lemma sh_closest : forall e p, closest_point_on_edge (Se e) (Sp p) = Sp (closest_point_on_edge e p).
  Proof.
    intros e p. unfold closest_point_on_edge, moved_edge, shifted. cbn [es ee px py]. un. rewrite !sub_sh.
    repeat match goal with |- context [if ?b then _ else _] => destruct b end; cbn [px py]; f_equal; ring.
  Qed.
  Lemma sh_e_sqdist : forall e p, e_sqdist (Se e) (Sp p) = e_sqdist e p.
  Proof. intros e p. unfold e_sqdist. rewrite sh_closest. exact (sh_sqdist p (closest_point_on_edge e p)). Qed.
  Lemma sh_e_dist : forall e p, e_dist (Se e) (Sp p) = e_dist e p.
  Proof. intros e p. unfold e_dist. rewrite sh_e_sqdist. reflexivity. Qed.
  Lemma sh_inter : forall e f, edge_intersection (Se e) (Se f) = option_map Sp (edge_intersection e f).
  Proof.
    intros e f. unfold edge_intersection, e_xmin, e_xmax, e_ymin, e_ymax, moved_edge, shifted. cbn [es ee px py]. un.
    rewrite !sub_sh, !min_sh, !max_sh, !min_sh, !lt_sh.
    repeat match goal with |- context [if ?b then _ else _] => destruct b; cbn [option_map]; try reflexivity end.
    cbn [px py]. do 2 f_equal; ring.
  Qed.
  Lemma sh_ee : forall e f, ee_collides (Se e) (Se f) = ee_collides e f.
  Proof. intros e f. unfold ee_collides. rewrite sh_inter. destruct (edge_intersection e f); reflexivity. Qed.
  Lemma sh_rp : forall r p, rp_collides (Sr r) (Sp p) = rp_collides r p.
  Proof. intros r p. unfold rp_collides, moved_rect, shifted. cbn [x_min y_min x_max y_max px py]. un. rewrite !le_sh. reflexivity. Qed.
  Lemma sh_centre : forall r, r_centroid (Sr r) = Sp (r_centroid r).
  Proof. intros r. unfold r_centroid, moved_rect, shifted, f2. cbn [x_min y_min x_max y_max px py]. un. rewrite !half_sh. reflexivity. Qed.
  Lemma sh_diam : forall r, r_diameter (Sr r) = r_diameter r.
  Proof. intros r. unfold r_diameter, moved_rect. cbn [x_min y_min x_max y_max]. un. rewrite !sub_sh. reflexivity. Qed.
  Lemma sh_square : forall r, inflate_to_square (Sr r) = Sr (inflate_to_square r).
  Proof.
    intros r. unfold inflate_to_square, moved_rect. cbn [x_min y_min x_max y_max]. un. rewrite !sub_sh.
    repeat match goal with |- context [if ?b then _ else _] => destruct b end; f_equal; lra.
  Qed.
  Lemma sh_e_bbox : forall e, e_bbox (Se e) = Sr (e_bbox e).
  Proof. intros e. unfold e_bbox, e_xmin, e_xmax, e_ymin, e_ymax, moved_edge, moved_rect, shifted. cbn [es ee px py x_min y_min x_max y_max]. un. rewrite !min_sh, !max_sh. reflexivity. Qed.
  Lemma sh_quads : forall r, quadrants (Sr r) = q4map Sr (quadrants r).
  Proof.
    intros r. unfold quadrants, q4map. cbn [qa qb qc qd]. rewrite sh_centre.
    f_equal; unfold corners; cbn [qa qb qc qd]; rewrite <- sh_e_bbox; reflexivity.
  Qed.
  Lemma sh_cp : forall c p, cp_collides (Sc c) (Sp p) = cp_collides c p.
  Proof. intros c p. unfold cp_collides, moved_circle. cbn [ccen crad]. rewrite sh_sqdist. reflexivity. Qed.
  Lemma sh_cpb : forall c p, cp_dist_border (Sc c) (Sp p) = cp_dist_border c p.
  Proof. intros c p. unfold cp_dist_border, moved_circle, shifted. cbn [ccen crad px py]. un. rewrite !sub_sh. reflexivity. Qed.
  Lemma sh_bbox : forall l, l <> [] -> bbox_of_points (map Sp l) = Sr (bbox_of_points l).
  Proof.
    intros [|p l] H; [contradiction|]. cbn [map bbox_of_points].
    change (Rc (px (Sp p)) (py (Sp p)) (px (Sp p)) (py (Sp p))) with (Sr (Rc (px p) (py p) (px p) (py p))).
    generalize (Rc (px p) (py p) (px p) (py p)). clear H. induction l as [|q l IH]; intros r; [reflexivity|]. cbn [map fold_left].
    rewrite <- IH. f_equal. unfold grow_bbox, moved_rect, shifted. cbn [px py x_min y_min x_max y_max]. un. rewrite !min_sh, !max_sh. reflexivity.
  Qed.
  Lemma sh_area : forall l, calculate_area (map Sp l) = calculate_area l.
  Proof.
    intros l. rewrite !area_ok. transitivity (shoelace (map (rot 1 0 dx dy) l)).
    - f_equal. apply map_ext. intros p. unfold shifted, rot. f_equal; ring.
    - apply shoelace_rot. ring.
  Qed.
  Lemma sh_count : forall l seen, unique_count (map Sp seen) (map Sp l) = unique_count seen l.
  Proof.
    induction l as [|p l IH]; intros seen; [reflexivity|]. cbn [map unique_count].
    assert (E : existsb (pt_eq (Sp p)) (map Sp seen) = existsb (pt_eq p) seen).
    { induction seen as [|q s IHs]; [reflexivity|]. cbn [map existsb]. rewrite sh_eq, IHs. reflexivity. }
    rewrite E, IH. destruct (existsb (pt_eq p) seen); [reflexivity|]. rewrite <- IH. reflexivity.
  Qed.

  (** *** convex hull *)
  Lemma sh_insert : forall p l, insert_by (@px R) (Sp p) (map Sp l) = map Sp (insert_by (@px R) p l).
  Proof.
    intros p l. induction l as [|q l IH]; [reflexivity|]. cbn [map insert_by]. unfold shifted at 1 2. cbn [px]. un. rewrite lt_sh, IH.
    destruct (Rltb (px p) (px q)); reflexivity.
  Qed.
  Lemma sh_sort : forall l, sort_by (@px R) (map Sp l) = map Sp (sort_by (@px R) l).
  Proof.
    intros l. unfold sort_by. change (@nil rpoint) with (map Sp []) at 1. generalize (@nil rpoint) as a.
    induction l as [|p l IH]; intros a; [reflexivity|]. cbn [map fold_left]. rewrite sh_insert, IH. reflexivity.
  Qed.
  Lemma sh_cross : forall a b c, cross (Sp a) (Sp b) (Sp c) = cross a b c.
  Proof. intros a b c. unfold cross, shifted. cbn [px py]. un. rewrite !sub_sh. reflexivity. Qed.
  Lemma sh_grow : forall h p, grow_hull (map Sp h) (Sp p) = map Sp (grow_hull h p).
  Proof.
    intros h p. induction h as [|b h IH]; [reflexivity|]. destruct h as [|a h]; [reflexivity|].
    assert (U : forall b a r p, grow_hull (b :: a :: r) p = if fle (cross a b p) f0 then grow_hull (a :: r) p else p :: b :: a :: r) by reflexivity.
    cbn [map] in *. rewrite !U, sh_cross, IH. destruct (fle (cross a b p) f0); reflexivity.
  Qed.
  Lemma sh_half : forall l, half_hull (map Sp l) = map Sp (half_hull l).
  Proof.
    intros l. unfold half_hull. change (@nil rpoint) with (map Sp []) at 1. generalize (@nil rpoint) as a.
    induction l as [|p l IH]; intros a; [reflexivity|]. cbn [map fold_left]. rewrite sh_grow, IH. reflexivity.
  Qed.
  Lemma tl_map : forall {A B} (f : A -> B) l, tl (map f l) = map f (tl l).
  Proof. intros A B f [|x l]; reflexivity. Qed.
  Lemma sh_hull : forall l, convex_hull (map Sp l) = map Sp (convex_hull l).
  Proof. intros l. unfold convex_hull. rewrite sh_sort, <- map_rev, !sh_half, !tl_map, <- !map_rev, map_app. reflexivity. Qed.
  Lemma position_map : forall {A B} (f : A -> B) P Q l, (forall x, Q (f x) = P x) -> position Q (map f l) = position P l.
  Proof. intros A B f P Q l H. induction l as [|x l IH]; [reflexivity|]. cbn [map position]. rewrite H, IH. reflexivity. Qed.
  Lemma sh_hull_idx : forall l, convex_hull_indices (map Sp l) = convex_hull_indices l.
  Proof.
    intros l. unfold convex_hull_indices. rewrite sh_hull.
    rewrite (rmapM_shift (fun p => expect (position (fun x => pt_eq x p) l)) _ Sp (fun x => x)).
    - destruct (rmapM _ _) as [y|]; [cbn [rmap]; rewrite map_id; reflexivity|reflexivity].
    - intros p. rewrite (position_map Sp (fun x => pt_eq x p)) by (intros x; apply sh_eq). destruct (expect _); reflexivity.
  Qed.
  Lemma sh_pairs : forall l : list rpoint, pairs (map Sp l) = map (fun q => (Sp (fst q), Sp (snd q))) (pairs l).
  Proof. induction l as [|p l IH]; [reflexivity|]. cbn [map pairs]. rewrite IH, map_app, !map_map. reflexivity. Qed.
  Lemma sh_diameter : forall l, calculate_diameter (map Sp l) = calculate_diameter l.
  Proof.
    intros l. unfold calculate_diameter. rewrite sh_hull, sh_pairs, map_map. cbn [fst snd].
    rewrite (map_ext _ (fun p => pt_sqdist (fst p) (snd p)) (fun p => sh_sqdist (fst p) (snd p))). reflexivity.
  Qed.

  (** *** polygons; only vertices and box are looked at *)
  Definition sim (s s' : poly R) : Prop := p_pts s' = map Sp (p_pts s) /\ p_bbox s' = Sr (p_bbox s).
  Lemma sh_get_edge : forall s s' i, sim s s' -> get_edge s' i = rmap Se (get_edge s i).
  Proof.
    intros s s' i (P & _). unfold get_edge, n_points. rewrite P, map_length, !nth_error_map.
    destruct (nth_error (p_pts s) i) as [a|]; [|reflexivity]. cbn [option_map expect rbind].
    destruct (nth_error (p_pts s) _) as [b|]; [|reflexivity]. cbn [option_map expect rbind]. apply sh_edge_new.
  Qed.
  Lemma sh_ray : forall bb p e, ray_counts (Sr bb) (Sp p) (Se e) = ray_counts bb p e.
  Proof.
    intros bb p e. unfold ray_counts.
    assert (E : Ed (Sp p) (Pt (fadd (x_max (Sr bb)) (r_width (Sr bb))) (py (Sp p))) = Se (Ed p (Pt (fadd (x_max bb) (r_width bb)) (py p)))).
    { unfold moved_edge, moved_rect, shifted, r_width. cbn [es ee px py x_max x_min]. un. rewrite sub_sh. do 2 f_equal. ring. }
    rewrite E, sh_ee. unfold fpa_eq, fpa_gt, fpa_lt, moved_edge, shifted. cbn [es ee px py]. un. rewrite !eq_sh, !lt_sh. reflexivity.
  Qed.
  Lemma sh_pp : forall s s' p, sim s s' -> pp_collides s' (Sp p) = pp_collides s p.
  Proof.
    intros s s' p H. pose proof H as (P & B). unfold pp_collides. rewrite B, sh_rp. destruct (rp_collides (p_bbox s) p); [|reflexivity].
    unfold edge_indices, n_points. rewrite P, map_length.
    rewrite (rfold_same _ (fun n i => e <- get_edge s i ;; Ok (if ray_counts (p_bbox s) p e then S n else n))); [reflexivity|].
    intros a i. rewrite (sh_get_edge s s' i H). destruct (get_edge s i) as [e|]; [|reflexivity]. cbn [rmap rbind]. rewrite sh_ray. reflexivity.
  Qed.
  Definition Sn (n : pnode R) : pnode R := PN (Sr (pn_bbox n)) (pn_radius n) (pn_dist n).
  Lemma sh_pnode : forall s s' poles bb, sim s s' -> pnode_new s' (map Sc poles) (Sr bb) = rmap Sn (pnode_new s poles bb).
  Proof.
    intros s s' poles bb H. pose proof H as (P & B). unfold pnode_new. rewrite sh_centre, (sh_pp s s' _ H).
    destruct (pp_collides s (r_centroid bb)) as [ins|]; [|reflexivity]. cbn [rbind].
    unfold edge_indices, n_points. rewrite P, map_length.
    rewrite (rmapM_same _ (fun i => e <- get_edge s i ;; Ok (e_dist e (r_centroid bb)))).
    2:{ intros i _. rewrite (sh_get_edge s s' i H). destruct (get_edge s i) as [e|]; [|reflexivity]. cbn [rmap rbind]. rewrite sh_e_dist. reflexivity. }
    destruct (rmapM _ _) as [de|]; [|reflexivity]. cbn [rbind].
    rewrite map_map, (map_ext _ (fun k => snd (cp_dist_border k (r_centroid bb)))) by (intros k; rewrite sh_cpb; reflexivity).
    destruct (de ++ _) as [|x r]; [reflexivity|]. cbn [rbind rmap]. unfold Sn. cbn [pn_bbox pn_radius pn_dist]. rewrite sh_diam. do 2 f_equal.
    assert (E : forallb (fun k => negb (cp_collides k (Sp (r_centroid bb)))) (map Sc poles) = forallb (fun k => negb (cp_collides k (r_centroid bb))) poles).
    { induction poles as [|k ps IH]; [reflexivity|]. cbn [map forallb]. rewrite sh_cp, IH. reflexivity. }
    rewrite E. reflexivity.
  Qed.
  Definition Sa (a : option rcircle * list (pnode R)) : option rcircle * list (pnode R) := (option_map Sc (fst a), map Sn (snd a)).
  Lemma sh_best : forall b, best_dist (option_map Sc b) = best_dist b.
  Proof. intros [c|]; reflexivity. Qed.
  Lemma sh_visit : forall s s' poles lvl a n, sim s s' -> poi_visit s' (map Sc poles) lvl (Sa a) (Sn n) = rmap Sa (poi_visit s poles lvl a n).
  Proof.
    intros s s' poles lvl [b q] n H. unfold poi_visit, Sa. cbn [fst snd]. rewrite sh_best.
    assert (E : (if flt (best_dist b) (pn_dist (Sn n)) then Some (Ci (r_centroid (pn_bbox (Sn n))) (pn_dist (Sn n))) else option_map Sc b) =
      option_map Sc (if flt (best_dist b) (pn_dist n) then Some (Ci (r_centroid (pn_bbox n)) (pn_dist n)) else b)).
    { unfold Sn. cbn [pn_bbox pn_dist]. rewrite sh_centre. destruct (flt (best_dist b) (pn_dist n)); reflexivity. }
    rewrite E, sh_best. change (pn_upper (Sn n)) with (pn_upper n).
    destruct (flt _ (pn_upper n)); [|reflexivity]. destruct lvl as [|l]; [reflexivity|].
    unfold Sn at 1. cbn [pn_bbox]. rewrite sh_quads.
    assert (Q : q4list (q4map Sr (quadrants (pn_bbox n))) = map Sr (q4list (quadrants (pn_bbox n)))) by reflexivity.
    rewrite Q, (rmapM_shift (pnode_new s poles) _ Sr Sn) by (intros r; apply sh_pnode; exact H).
    destruct (rmapM _ _) as [ch|]; [|reflexivity]. cbn [rmap rbind fst snd]. rewrite map_app. reflexivity.
  Qed.
  Lemma sh_levels : forall s s' poles, sim s s' -> forall lvl b q,
    poi_levels s' (map Sc poles) lvl (option_map Sc b) (map Sn q) = rmap (option_map Sc) (poi_levels s poles lvl b q).
  Proof.
    intros s s' poles H lvl. induction lvl as [|l IH]; intros b q; cbn [poi_levels].
    - change (option_map Sc b, []) with (Sa (b, [])).
      rewrite (rfold_shift (poi_visit s poles 0) _ Sa Sn) by (intros a n; apply sh_visit; exact H).
      destruct (rfold _ _ _) as [[b' q']|]; reflexivity.
    - change (option_map Sc b, []) with (Sa (b, [])).
      rewrite (rfold_shift (poi_visit s poles (S l)) _ Sa Sn) by (intros a n; apply sh_visit; exact H).
      destruct (rfold _ _ _) as [[b' q']|]; [|reflexivity]. cbn [rmap rbind Sa fst snd]. apply IH.
  Qed.
  Lemma sh_next : forall depth s s' poles, sim s s' -> next_pole depth s' (map Sc poles) = rmap Sc (next_pole depth s poles).
  Proof.
    intros depth s s' poles H. unfold next_pole. rewrite (proj2 H), sh_square, (sh_pnode s s' poles _ H).
    destruct (pnode_new s poles _) as [n|]; [|reflexivity]. cbn [rmap rbind].
    pose proof (sh_levels s s' poles H depth None [n]) as E. cbn [option_map map] in E. rewrite E.
    destruct (poi_levels s poles depth None [n]) as [[c|]|]; reflexivity.
  Qed.
  Lemma sh_more : forall s s' pi goal, sim s s' -> forall n poles total,
    more_poles n pi goal s' (map Sc poles) total = rmap (map Sc) (more_poles n pi goal s poles total).
  Proof.
    intros s s' pi goal H n. induction n as [|n IH]; intros poles total; [reflexivity|]. cbn [more_poles].
    unfold generate_next_pole. rewrite (sh_next _ s s' poles H). destruct (next_pole _ s poles) as [c|]; [|reflexivity]. cbn [rmap rbind].
    change (c_area pi (Sc c)) with (c_area pi c). change ([Sc c]) with (map Sc [c]). rewrite <- map_app, IH.
    destruct (flt goal _); reflexivity.
  Qed.
  Lemma sh_vremove : forall {A B} (f : A -> B) l i, vremove i (map f l) = option_map (fun q => (f (fst q), map f (snd q))) (vremove i l).
  Proof.
    intros A B f l. induction l as [|x l IH]; intros [|i]; try reflexivity. cbn [map vremove].
    rewrite IH. destruct (vremove i l) as [[y r]|]; reflexivity.
  Qed.
  Lemma sh_sort_poles : forall n poi sorted l, sort_poles n (Sc poi) (map Sc sorted) (map Sc l) = rmap (map Sc) (sort_poles n poi sorted l).
  Proof.
    induction n as [|n IH]; intros poi sorted l.
    - destruct l; reflexivity.
    - destruct l as [|c l]; [reflexivity|]. set (u := c :: l).
      assert (U : forall so v, v <> [] -> sort_poles (S n) poi so v =
        (ks <- rmapM (fun p => d <- expect (fmin_list (map (fun k => snd (cp_dist_border k (ccen p))) (so ++ [poi]))) ;; Ok (fmul (fsq (crad p)) d)) v ;;
         i <- expect (max_index ks) ;; '(p, rest) <- expect (vremove i v) ;; sort_poles n poi (so ++ [p]) rest)) by (intros so [|? ?] Hv; [contradiction|reflexivity]).
      assert (U' : forall so v, v <> [] -> sort_poles (S n) (Sc poi) so v =
        (ks <- rmapM (fun p => d <- expect (fmin_list (map (fun k => snd (cp_dist_border k (ccen p))) (so ++ [Sc poi]))) ;; Ok (fmul (fsq (crad p)) d)) v ;;
         i <- expect (max_index ks) ;; '(p, rest) <- expect (vremove i v) ;; sort_poles n (Sc poi) (so ++ [p]) rest)) by (intros so [|? ?] Hv; [contradiction|reflexivity]).
      rewrite U by discriminate. rewrite U' by discriminate. clear U U'.
      rewrite (rmapM_shift (fun p => d <- expect (fmin_list (map (fun k => snd (cp_dist_border k (ccen p))) (sorted ++ [poi]))) ;; Ok (fmul (fsq (crad p)) d)) _ Sc (fun x => x)).
      2:{ intros p. change ([Sc poi]) with (map Sc [poi]). rewrite <- map_app, map_map. unfold moved_circle at 2 3. cbn [ccen crad].
          rewrite (map_ext _ (fun k => snd (cp_dist_border k (ccen p)))) by (intros k; rewrite sh_cpb; reflexivity).
          destruct (expect _); reflexivity. }
      destruct (rmapM _ u) as [ks|]; [|reflexivity]. cbn [rmap rbind]. rewrite map_id.
      destruct (expect (max_index ks)) as [i|]; [|reflexivity]. cbn [rbind]. rewrite sh_vremove.
      destruct (vremove i u) as [[p rest]|]; [|reflexivity]. cbn [option_map expect rbind fst snd].
      change ([Sc p]) with (map Sc [p]). rewrite <- map_app. apply IH.
  Qed.
  Lemma sh_additional : forall pi s s' m goal, sim s s' -> p_area s' = p_area s -> p_poi s' = Sc (p_poi s) ->
    additional_poles pi s' m goal = rmap (map Sc) (additional_poles pi s m goal).
  Proof.
    intros pi s s' m goal H Ha Hp. unfold additional_poles. rewrite Ha, Hp. change ([Sc (p_poi s)]) with (map Sc [p_poi s]).
    change (c_area pi (Sc (p_poi s))) with (c_area pi (p_poi s)). rewrite (sh_more s s' pi _ H).
    destruct (more_poles _ _ _ _ _ _) as [l|]; [|reflexivity]. cbn [rmap rbind]. rewrite tl_map, map_length.
    change (@nil rcircle) with (map Sc []) at 1. apply sh_sort_poles.
  Qed.
  Lemma sh_bstep : forall b c, bounding_step (Sc b) (Sc c) = rmap Sc (bounding_step b c).
  Proof.
    intros b c. unfold bounding_step. cbv zeta. change (crad (Sc b)) with (crad b). change (crad (Sc c)) with (crad c).
    change (ccen (Sc b)) with (Sp (ccen b)). change (ccen (Sc c)) with (Sp (ccen c)). rewrite sh_dist, sh_edge_new.
    destruct (flt (crad b) _); [|reflexivity]. destruct (edge_new (ccen b) (ccen c)) as [e|]; [|reflexivity]. cbn [rmap rbind].
    assert (D : e_diameter (Se e) = e_diameter e) by (unfold e_diameter, moved_edge; cbn [es ee]; apply sh_dist).
    assert (Ff : extend_at_front (Se e) (crad b) = Se (extend_at_front e (crad b))).
    { unfold extend_at_front. rewrite D. unfold moved_edge, shifted. cbn [es ee px py]. un. rewrite !sub_sh. f_equal. f_equal; lra. }
    rewrite Ff. set (e1 := extend_at_front e (crad b)).
    assert (D1 : e_diameter (Se e1) = e_diameter e1) by (unfold e_diameter, moved_edge; cbn [es ee]; apply sh_dist).
    assert (Fb : extend_at_back (Se e1) (crad c) = Se (extend_at_back e1 (crad c))).
    { unfold extend_at_back. rewrite D1. unfold moved_edge, shifted. cbn [es ee px py]. un. rewrite !sub_sh. f_equal. f_equal; lra. }
    rewrite Fb. set (e2 := extend_at_back e1 (crad c)).
    assert (D2 : e_diameter (Se e2) = e_diameter e2) by (unfold e_diameter, moved_edge; cbn [es ee]; apply sh_dist).
    cbv zeta. rewrite D2. unfold moved_circle. cbn [ccen crad]. do 2 f_equal.
    unfold e_centroid, moved_edge, shifted, f2. cbn [es ee px py]. un. rewrite !half_sh. reflexivity.
  Qed.
  Lemma sh_bounding : forall l, bounding_circle (map Sc l) = rmap Sc (bounding_circle l).
  Proof. intros [|c l]; [reflexivity|]. cbn [map bounding_circle]. apply rfold_shift. exact sh_bstep. Qed.

  Theorem sh_poly_new : forall l, poly_new (map Sp l) = rmap Ss (poly_new l).
  Proof.
    intros l. unfold poly_new. rewrite map_length. destruct (Nat.leb 3 (length l)) eqn:L; [|reflexivity]. cbn [rassert rbind].
    pose proof (sh_count l []) as Ec. cbn [map] in Ec. rewrite Ec. destruct (Nat.eqb _ _); [|reflexivity]. cbn [rassert rbind]. rewrite sh_area.
    destruct (feq (calculate_area l) f0); [reflexivity|].
    assert (K : forall pts (a : R), pts <> [] ->
      (diam <- calculate_diameter (map Sp pts) ;; poi <- calculate_poi (map Sp pts) diam ;; Ok (Poly (map Sp pts) (bbox_of_points (map Sp pts)) a diam poi None)) =
      rmap Ss (diam <- calculate_diameter pts ;; poi <- calculate_poi pts diam ;; Ok (Poly pts (bbox_of_points pts) a diam poi None))).
    { intros pts a Hn. rewrite sh_diameter. destruct (calculate_diameter pts) as [d|]; [|reflexivity]. cbn [rbind].
      unfold calculate_poi, generate_next_pole. 
      pose proof (sh_next MAX_POI_TREE_DEPTH (Poly pts (bbox_of_points pts) (calculate_area pts) d (Ci (Pt f0 f0) f0) None)
        (Poly (map Sp pts) (bbox_of_points (map Sp pts)) (calculate_area (map Sp pts)) d (Ci (Pt f0 f0) f0) None) []
        (conj eq_refl (sh_bbox pts Hn))) as En. cbn [map] in En. rewrite En. clear En.
      set (q := Poly pts (bbox_of_points pts) (calculate_area pts) d (Ci (Pt f0 f0) f0) None).
      destruct (next_pole MAX_POI_TREE_DEPTH q []) as [c|]; [|reflexivity]. cbn [rmap rbind]. unfold moved_poly. cbn [p_pts p_bbox p_area p_diam p_poi p_surr option_map].
      rewrite sh_bbox by exact Hn. reflexivity. }
    assert (Hl : l <> []) by (intros ->; discriminate).
    destruct (flt (calculate_area l) f0).
    - rewrite <- map_rev. apply K. intros E. apply (f_equal (@length rpoint)) in E. rewrite rev_length in E. destruct l; [contradiction|discriminate].
    - apply K. exact Hl.
  Qed.
End S.
