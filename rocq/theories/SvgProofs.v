(** Drawings show what the solution file says. *)
From Coq Require Import List Bool Arith Lia Sorting.Sorted.
From Verif Require Import Base Num GeoModel HazardModel QTModel TransfModel HpgModel CdeModel CdeSpec
  PolyModel ParserModel SimplModel SlotMapModel LayoutModel ProblemModel ProblemSpec LbfModel IoModel ParseModel SvgModel
  BaseProofs Instances ParityProofs PipProofs NormProofs XformProofs ConstructProofs RigidProofs RegionProofs RectPolyProofs LayoutProofs ProblemProofs ProblemOpsProofs
  MirrorProofs LbfThmProofs LbfHistProofs FitProofs LbfStripThmProofs LbfSpProofs IoProofs IoThmProofs ParseProofs ParseThmProofs.
From Coq Require Import Reals Lra.
From Verif Require Import GeoModel HazardModel QTModel TransfModel HpgModel CdeModel CdeSpec GeoSpec PlaceSpec HpgSpec ShapeSpec SimplSpec LbfModel LbfSpec IoModel IoSpec ParseModel ParseSpec SvgModel SvgSpec.
Import ListNotations.
Local Open Scope R_scope.
#[local] Existing Instance RTrig.

(** *** lists *)
Lemma rmapM_concat : forall {A B C} (f : A -> res (list B)) (g : B -> C) (h : A -> list C) l r,
  (forall x y, In x l -> f x = Ok y -> map g y = h x) -> rmapM f l = Ok r -> map g (concat r) = flat_map h l.
Proof.
  induction l as [|x l IH]; intros r K H; cbn [rmapM] in H.
  - injection H as <-. reflexivity.
  - apply rbind_ok in H as (y & Ey & H). apply rbind_ok in H as (ys & Eys & H). injection H as <-. cbn [concat flat_map]. rewrite map_app.
    rewrite (K x y (or_introl eq_refl) Ey). f_equal. apply IH; [|exact Eys]. intros a b Ha. apply K. right. exact Ha.
Qed.
Lemma rmapM_map_eq : forall {A B C} (f : A -> res B) (g : B -> C) (h : A -> C) l r,
  (forall x y, In x l -> f x = Ok y -> g y = h x) -> rmapM f l = Ok r -> map g r = map h l.
Proof.
  induction l as [|x l IH]; intros r K H; cbn [rmapM] in H.
  - injection H as <-. reflexivity.
  - apply rbind_ok in H as (y & Ey & H). apply rbind_ok in H as (ys & Eys & H). injection H as <-. cbn [map].
    rewrite (K x y (or_introl eq_refl) Ey). f_equal. apply IH; [|exact Eys]. intros a b Ha. apply K. right. exact Ha.
Qed.
Lemma filter_flat_map : forall {A B} (p : B -> bool) (f : A -> list B) l, filter p (flat_map f l) = flat_map (fun x => filter p (f x)) l.
Proof. induction l as [|x l IH]; cbn [flat_map]; [reflexivity|]. rewrite filter_app, IH. reflexivity. Qed.
Lemma filter_none : forall {A} (f : A -> bool) l, (forall x, In x l -> f x = false) -> filter f l = [].
Proof. induction l as [|x l IH]; intros H; cbn [filter]; [reflexivity|]. rewrite (H x (or_introl eq_refl)). apply IH. intros y Hy. apply H. right. exact Hy. Qed.
Lemma filter_one : forall {A} (f : A -> nat) l z, NoDup (map f l) -> In z l -> filter (fun x => Nat.eqb (f x) (f z)) l = [z].
Proof.
  induction l as [|x l IH]; intros z Nd Hz; [destruct Hz|]. cbn [map] in Nd. inversion Nd as [|? ? N1 N2]; subst. cbn [filter]. destruct Hz as [->|Hz].
  - rewrite Nat.eqb_refl. f_equal. apply filter_none. intros y Hy. apply Nat.eqb_neq. intros E. apply N1. rewrite <- E. apply in_map. exact Hy.
  - destruct (Nat.eqb (f x) (f z)) eqn:E; [|apply IH; assumption]. exfalso. apply N1. apply Nat.eqb_eq in E. rewrite E. apply in_map. exact Hz.
Qed.

(** *** paths and attributes *)
Lemma lines_traced : forall l : list rpoint, lines_to (map LineTo l ++ [Close]) = Some l.
Proof. induction l as [|p l IH]; cbn [map app lines_to]; [reflexivity|]. rewrite IH. reflexivity. Qed.
Section A.
  Variable M : R.
  Context {X : Extra R} {ED : EqD (dtransf R)} {BS : BSearch}.
  #[local] Instance NV : Num R := RNumT Reqb M.
  Hypothesis Ep : @fPI R X = PI.
  Local Notation bin := (bin R (dtransf R)).
  Local Notation item := (item R).

  Lemma data_traced : forall (s : poly R) l, polygon_data s = Ok l -> traced l = Some (p_pts s).
  Proof.
    intros s l H. unfold polygon_data in H. apply rbind_ok in H as (p & Ep' & H). injection H as <-.
    destruct (p_pts s) as [|q r]; [discriminate|]. injection Ep' as ->. cbn [traced]. cbn [skipn]. rewrite lines_traced. reflexivity.
  Qed.
  Lemma attr_put : forall t p, moved_by (transform_to_svg t) p = put (decompose t) p.
  Proof.
    intros t p. unfold moved_by, transform_to_svg, put, to_degrees. cbn [at_tx at_ty at_deg]. rewrite Ep.
    replace (fmul (dt_rot (decompose t)) (fdiv (fofN 180) PI) / 180 * PI) with (dt_rot (decompose t)); [reflexivity|].
    unfold fmul, fdiv, fofN. cbn [NV RNumT]. rewrite INR_IZR_INZ. cbn [Z.of_nat Pos.of_succ_nat Pos.succ]. pose proof PI_neq0. field. exact H.
  Qed.
  Lemma undo : forall t dx dy p, motion t -> shift_by t dx dy -> tr_point (N := RNum) (t_inverse (N := RNum) t) (shifted dx dy p) = p.
  Proof. intros t dx dy p Mo Sh. rewrite <- Sh. apply inv_left. exact Mo. Qed.
  Lemma undo_shape : forall t dx dy o s, motion t -> shift_by t dx dy -> at_shift dx dy o s -> p_pts (tr_poly (t_inverse t) s) = o.
  Proof.
    intros t dx dy o s Mo Sh (E & _). cbn [tr_poly p_pts]. rewrite E, map_map. rewrite <- (map_id o) at 2. apply map_ext. intros p.
    exact (undo t dx dy p Mo Sh).
  Qed.

  (** *** bins *)
  Record bin_at (b : bin) (dx dy : R) (c : fbin) : Prop := {
    ba_motion : motion (bn_pre b);
    ba_pre : shift_by (bn_pre b) dx dy;
    ba_outer : at_shift dx dy (fb_outer c) (a_obj (bn_outer b));
    ba_holes : Forall2 (at_shift dx dy) (fb_holes c) (map (@a_obj R) (bn_holes b));
    ba_zones : (bn_zones b = repeat None 10 /\ fb_zones c = []) \/
      exists l, bn_zones b = map Some l /\ map (@qz_quality R) l = seq 0 10 /\ (forall z, In z (fb_zones c) -> (fst z < 10)%nat) /\
      forall z, In z l -> Forall2 (at_shift dx dy) (map snd (filter (fun x => Nat.eqb (fst x) (qz_quality z)) (fb_zones c))) (map (@a_obj R) (qz_zones z)) }.
  Lemma reads_at : forall tol j id b dx dy o hs zs, bin_reads tol j id b dx dy o hs zs -> bin_at b dx dy (FB o hs zs).
  Proof.
    intros tol j id b dx dy o hs zs H. split; try apply H. right. destruct (br_zones _ _ _ _ _ _ _ _ _ H) as (l & A & B & C).
    exists l. split; [exact A|]. split; [exact B|]. split; [apply H|exact C].
  Qed.

  Variable pr : parser R.
  (** the bin that is drawn, in the coordinates of the file *)
  Record bin_home (b : bin) (c : fbin) : Prop := {
    bh_outer : p_pts (a_obj (bn_outer b)) = fb_outer c;
    bh_box : p_bbox (a_obj (bn_outer b)) = bbox_of_points (N := NV) (fb_outer c);
    bh_holes : map (fun h => p_pts (a_obj h)) (bn_holes b) = fb_holes c;
    bh_zones : (bn_zones b = repeat None 10 /\ fb_zones c = []) \/
      exists l, bn_zones b = map Some l /\ map (@qz_quality R) l = seq 0 10 /\ (forall z, In z (fb_zones c) -> (fst z < 10)%nat) /\
      forall z, In z l -> map snd (filter (fun x => Nat.eqb (fst x) (qz_quality z)) (fb_zones c)) = map (fun s => p_pts (a_obj s)) (qz_zones z) }.
  Lemma undo_all : forall t dx dy os ss, motion t -> shift_by t dx dy -> Forall2 (at_shift dx dy) os ss ->
    map (fun s => p_pts (tr_poly (t_inverse t) s)) ss = os.
  Proof. intros t dx dy os ss Mo Sh. induction 1; cbn [map]; [reflexivity|]. f_equal; [eapply undo_shape; eassumption|assumption]. Qed.
  Lemma drawn_home : forall b dx dy c ptr b', bin_at b dx dy c -> drawn_bin pr b ptr = Ok b' -> bin_home b' c /\ bn_id b' = bn_id b.
  Proof.
    intros b dx dy c ptr b' A H. unfold drawn_bin, pretransform_bin in H.
    pose proof (ba_motion _ _ _ _ A) as Mo. pose proof (ba_pre _ _ _ _ A) as Sh.
    assert (Eo : p_pts (tr_poly (t_inverse (bn_pre b)) (a_obj (bn_outer b))) = fb_outer c) by (eapply undo_shape; [exact Mo|exact Sh|apply A]).
    assert (Eh : map (@p_pts R) (map (fun h => tr_poly (t_inverse (bn_pre b)) (a_obj h)) (bn_holes b)) = fb_holes c).
    { pose proof (undo_all _ _ _ _ _ Mo Sh (ba_holes _ _ _ _ A)) as K. rewrite map_map in *. exact K. }
    destruct (ba_zones _ _ _ _ A) as [(Ez & Ec)|(l & Ez & Q & Lq & Fz)].
    - rewrite Ez in H. cbn [repeat omap map] in H. unfold fresh_bin, bin_new in H. apply rbind_ok in H as (? & _ & H). apply rbind_ok in H as (? & _ & H).
      apply rbind_ok in H as (e & _ & H). injection H as <-. split; [|reflexivity]. split; cbn [bn_outer bn_holes bn_zones a_obj].
      + exact Eo.
      + rewrite <- Eo. reflexivity.
      + match goal with |- context [alloc ?p ?l] => rewrite <- (map_map (@a_obj R) (@p_pts R) (alloc p l)), alloc_objs end. exact Eh.
      + left. split; [reflexivity|exact Ec].
    - rewrite Ez, omap_some in H. apply fresh_inv in H.
      + destruct H as (Hi & Ho & _ & _ & Hh & l' & Hz & Hv). split; [|exact Hi]. split.
        * rewrite Ho. exact Eo.
        * rewrite Ho, <- Eo. reflexivity.
        * rewrite <- map_map, Hh. exact Eh.
        * right. exists l'. split; [exact Hz|]. split; [|split; [exact Lq|]].
          -- apply (f_equal (map fst)) in Hv. rewrite !map_map in Hv. cbn [zview fst] in Hv. rewrite <- Q. exact Hv.
          -- intros z' Hz'. apply (in_map zview) in Hz'. rewrite Hv in Hz'. apply in_map_iff in Hz' as (z & E & Iz). injection E as E1 E2.
             specialize (Fz z Iz). rewrite <- E1. pose proof (undo_all _ _ _ _ _ Mo Sh Fz) as K. rewrite <- K, <- (map_map (@a_obj R) (@p_pts R) (qz_zones z')), <- E2, !map_map. reflexivity.
      + rewrite map_map. cbn [fst]. exact Q.
  Qed.

  (** *** zones *)
  Variable pre : nat -> transf R.
  Lemma zones_traced : forall th b c zs, bin_home b c -> zone_data th b = Ok zs ->
    (forall q, map traced (map snd (filter (fun z => Nat.eqb (fst (fst z)) q) zs)) = map (fun z => Some (snd z)) (filter (fun z => Nat.eqb (fst z) q) (fb_zones c))) /\
    StronglySorted (fun a b => (b <= a)%nat) (map (fun z => fst (fst z)) zs).
  Proof.
    intros th b c zs Hb H. unfold zone_data in H. apply rbind_ok in H as (r & Er & H). injection H as <-.
    destruct (bh_zones _ _ Hb) as [(Ez & Ec)|(l & Ez & Q & Lq & Fz)].
    - rewrite Ez in Er. cbn in Er. injection Er as <-. rewrite Ec. split; [intros q; reflexivity|constructor].
    - rewrite Ez, <- map_rev, omap_some in Er.
      assert (K : map (fun z => (fst (fst z), traced (snd z))) (concat r) = flat_map (fun z => map (fun s => (qz_quality z, Some (p_pts (a_obj s)))) (qz_zones z)) (rev l)).
      { apply (rmapM_concat _ _ _ _ _) with (2 := Er). intros z y _ E. apply rbind_ok in E as (cl & _ & E).
        apply (rmapM_map_eq _ _ _ _ _) with (2 := E). intros s d _ Es. apply rbind_ok in Es as (k & Ek & Es). injection Es as <-. cbn [fst snd]. rewrite (data_traced _ _ Ek). reflexivity. }
      assert (Nd : NoDup (map (@qz_quality R) l)) by (rewrite Q; apply seq_NoDup).
      split.
      + intros q. transitivity (map snd (filter (fun z => Nat.eqb (fst z) q) (map (fun z => (fst (fst z), traced (snd z))) (concat r)))).
        { clear. induction (concat r) as [|z zs IH]; cbn [map filter fst]; [reflexivity|]. destruct (Nat.eqb (fst (fst z)) q); cbn [map snd]; [f_equal|]; exact IH. }
        rewrite K, filter_flat_map. clear K Er.
        assert (E : flat_map (fun z => filter (fun x : nat * option (list rpoint) => Nat.eqb (fst x) q) (map (fun s => (qz_quality z, Some (p_pts (a_obj s)))) (qz_zones z))) (rev l)
                    = flat_map (fun z => map (fun s => (qz_quality z, Some (p_pts (a_obj s)))) (qz_zones z)) (filter (fun z => Nat.eqb (qz_quality z) q) (rev l))).
        { induction (rev l) as [|z zl IH]; cbn [flat_map filter]; [reflexivity|]. rewrite IH. destruct (Nat.eqb (qz_quality z) q) eqn:E.
          - cbn [flat_map]. f_equal. clear - E. induction (qz_zones z) as [|s ss IH]; cbn [map filter fst]; [reflexivity|]. rewrite E. f_equal. exact IH.
          - rewrite filter_none; [reflexivity|]. intros x Hx. apply in_map_iff in Hx as (s & <- & _). exact E. }
        rewrite E. clear E. destruct (le_lt_dec 10 q) as [Hq|Hq].
        * rewrite (filter_none (fun z : qzone R => Nat.eqb (qz_quality z) q)), (filter_none (fun z : nat * list rpoint => Nat.eqb (fst z) q)); [reflexivity| |].
          -- intros z Hz. apply Nat.eqb_neq. specialize (Lq z Hz). lia.
          -- intros z Hz. apply Nat.eqb_neq. apply in_rev in Hz. apply (in_map (@qz_quality R)) in Hz. rewrite Q in Hz. apply in_seq in Hz. lia.
        * assert (Hi : In q (map (@qz_quality R) l)) by (rewrite Q; apply in_seq; lia). apply in_map_iff in Hi as (z & <- & Hz).
          rewrite filter_one; [|rewrite map_rev; apply NoDup_rev; exact Nd|apply in_rev in Hz; exact Hz].
          cbn [flat_map]. rewrite app_nil_r, map_map. cbn [snd]. specialize (Fz z Hz).
          rewrite <- (map_map snd Some (filter _ (fb_zones c))), Fz, map_map. reflexivity.
      + replace (map (fun z => fst (fst z)) (concat r)) with (map fst (map (fun z => (fst (fst z), traced (snd z))) (concat r))) by (rewrite map_map; reflexivity).
        rewrite K. clear K Er. assert (S : StronglySorted (fun a b => (b <= a)%nat) (map (@qz_quality R) (rev l))).
        { rewrite map_rev, Q. cbn. repeat constructor. }
        clear - S. induction (rev l) as [|z zl IH]; cbn [flat_map map]; [constructor|]. cbn [map] in S. inversion S as [|? ? S1 S2]; subst. specialize (IH S1).
        rewrite map_app, map_map. cbn [fst]. induction (qz_zones z) as [|s ss IHs]; cbn [map app]; [exact IH|]. constructor; [exact IHs|].
        apply Forall_app. split.
        * apply Forall_forall. intros x Hx. apply in_map_iff in Hx as (? & <- & _). lia.
        * apply Forall_forall. intros x Hx. apply in_map_iff in Hx as (y & <- & Hy). apply in_flat_map in Hy as (z' & Hz' & Hy). apply in_map_iff in Hy as (? & <- & _). cbn [fst].
          rewrite Forall_forall in S2. apply S2. apply in_map. exact Hz'.
  Qed.

  (** *** items *)
  Definition item_at (it : item) (i : nat) (o : list rpoint) : Prop :=
    it_id it = i /\ exists dx dy, motion (pre i) /\ shift_by (pre i) dx dy /\ at_shift dx dy o (it_shape it).
  Lemma def_traced : forall o it i out x s, item_at it i out -> item_def pr pre o it = Ok (x, s) -> fst (fst x) = i /\ traced (snd x) = Some out.
  Proof.
    intros o it i out x s (Ei & dx & dy & Mo & Sh & At) H. unfold item_def in H. apply rbind_ok in H as (d & Ed & H). apply rbind_ok in H as (c & _ & H).
    apply rbind_ok in H as (l & El & H). apply rbind_ok in H as (s' & _ & H). injection H as <- _. cbn [fst snd].
    unfold drawn_item, pretransform_item in Ed. apply rbind_ok in Ed as (y & Ey & Ed). injection Ed as <-. unfold item_new in Ey. apply rbind_ok in Ey as (p & Eg & Ey). injection Ey as <-.
    cbn [fst it_id it_shape] in *. split; [exact Ei|]. rewrite (data_traced _ _ El). f_equal.
    unfold generate_surrogate in Eg. apply rbind_ok in Eg as (u & _ & Eg). injection Eg as <-. cbn [p_pts]. rewrite Ei. exact (undo_shape _ _ _ _ _ Mo Sh At).
  Qed.
  Lemma defs_find : forall o (items : list (item * nat)) (fs : list fitem) k defs, length fs = length items ->
    (forall i it q f, nth_error items i = Some (it, q) -> nth_error fs i = Some f -> item_at it (k + i) (fi_outline f)) ->
    rmapM (fun x => item_def pr pre o (fst x)) items = Ok defs -> forall i f, nth_error fs i = Some f ->
    exists x, find (fun x : nat * color * list (cmd R) => Nat.eqb (fst (fst x)) (k + i)) (map fst defs) = Some x /\ traced (snd x) = Some (fi_outline f).
  Proof.
    intros o. induction items as [|[it q] items IH]; intros fs k defs L K H i f Hf.
    - destruct fs; [destruct i; discriminate|discriminate].
    - destruct fs as [|f0 fs]; [discriminate|]. cbn [rmapM] in H. apply rbind_ok in H as ([x s] & Ex & H). apply rbind_ok in H as (r & Er & H). injection H as <-.
      destruct (def_traced _ _ _ _ _ _ (K 0%nat it q f0 eq_refl eq_refl) Ex) as (A & B). cbn [map find fst]. rewrite A.
      destruct i as [|i].
      + injection Hf as <-. rewrite Nat.eqb_refl. exists x. auto.
      + destruct (Nat.eqb (k + 0) (k + S i)) eqn:E; [apply Nat.eqb_eq in E; lia|].
        specialize (IH fs (S k) r ltac:(cbn [length] in L; lia)).
        replace (k + S i)%nat with (S k + i)%nat by lia. apply IH with (i := i) (f := f); [|exact Er|exact Hf].
        intros i' it' q' f' H1 H2. replace (S k + i')%nat with (k + S i')%nat by lia. exact (K (S i') it' q' f' H1 H2).
  Qed.

  (** *** one layout *)
  Lemma view_box : forall c b p, bin_home b c -> proper (p_bbox (a_obj (bn_outer b))) -> In p (fb_outer c) ->
    let v := r_scale (p_bbox (a_obj (bn_outer b))) (view_factor (N := NV)) in in_view (x_min v, y_min v, r_width v, r_height v) p.
  Proof.
    intros c b p Hb (Px & Py) Hp v. pose proof (bh_box _ _ Hb) as Eb. 
    assert (I : x_min (p_bbox (a_obj (bn_outer b))) <= px p <= x_max (p_bbox (a_obj (bn_outer b))) /\ y_min (p_bbox (a_obj (bn_outer b))) <= py p <= y_max (p_bbox (a_obj (bn_outer b)))).
    { rewrite Eb. destruct (bbox_ok (fb_outer c)) as (B & _); [intros E; rewrite E in Hp; destruct Hp|]. exact (B p Hp). }
    unfold v, in_view, r_scale, r_width, r_height, view_factor, f2. cbn [x_min x_max y_min y_max]. cbn [NV RNumT RNum fadd fsub fmul fdiv f1 fofN].
    rewrite !INR_IZR_INZ. cbn [Z.of_nat Pos.of_succ_nat Pos.succ]. lra.
  Qed.

  Lemma shift_proper : forall dx dy o s, at_shift dx dy o s -> proper (bbox_of_points (N := NV) o).
  Proof.
    intros dx dy o s (E & Md). destruct (nm_box _ (md_norm _ Md)) as (_ & (a & Ia & Ea) & (b & Ib & Eb) & (c & Ic & Ec) & (d & Id & Ed)).
    pose proof (md_proper _ Md) as (Px & Py). rewrite E in Ia, Ib, Ic, Id.
    apply in_map_iff in Ia as (a' & <- & Ia). apply in_map_iff in Ib as (b' & <- & Ib). apply in_map_iff in Ic as (c' & <- & Ic). apply in_map_iff in Id as (d' & <- & Id).
    unfold shifted in Ea, Eb, Ec, Ed. cbn [px py] in Ea, Eb, Ec, Ed.
    destruct (bbox_ok o) as (K & _); [intros Z; rewrite Z in Ia; destruct Ia|].
    pose proof (K _ Ia) as (K1 & _). pose proof (K _ Ib) as (K2 & _). pose proof (K _ Ic) as (_ & K3). pose proof (K _ Id) as (_ & K4).
    split; change (@bbox_of_points R NV o) with (@bbox_of_points R RNum o); lra.
  Qed.
  Lemma uses_shown : forall (items : list (item * nat)) (b : bin) ps uses pl,
    rmapM (item_use pre items b) ps = Ok uses -> rmapM (export_item pre items b) ps = Ok pl ->
    Forall2 (fun u x => fst u = fst x /\ (fst x < length items)%nat /\ forall p, moved_by (snd u) p = put (snd x) p) uses pl.
  Proof.
    induction ps as [|p ps IH]; intros uses pl Hu Hp; cbn [rmapM] in Hu, Hp.
    - injection Hu as <-. injection Hp as <-. constructor.
    - apply rbind_ok in Hu as (u & Eu & Hu). apply rbind_ok in Hu as (us & Eus & Hu). injection Hu as <-.
      apply rbind_ok in Hp as (x & Ex & Hp). apply rbind_ok in Hp as (xs & Exs & Hp). injection Hp as <-.
      constructor; [|apply IH; assumption]. unfold item_use in Eu. unfold export_item in Ex. apply rbind_ok in Eu as (it & Ei & Eu). apply rbind_ok in Ex as (? & _ & Ex).
      injection Eu as <-. injection Ex as <-. cbn [fst snd]. split; [reflexivity|]. split; [|intros q; apply attr_put].
      unfold item_of in Ei. apply rbind_ok in Ei as (y & Ey & _). apply expect_ok in Ey. apply nth_error_Some. congruence.
  Qed.
  Theorem layout_pictures : forall items o sn ptr d ct jl dx dy c fs, length fs = length items ->
    (forall i it q f, nth_error items i = Some (it, q) -> nth_error fs i = Some f -> item_at it i (fi_outline f)) ->
    bin_at (ls_bin sn) dx dy c -> snapshot_to_svg pr pre items o sn ptr = Ok d -> export_layout pre items ct sn = Ok jl ->
    pictures fs c (jl_items jl) d.
  Proof.
    intros items o sn ptr d ct jl dx dy c fs L Ki A H E. unfold snapshot_to_svg in H. apply rbind_ok in H as (l & El & H).
    unfold layout_from_snapshot, layout_restore in El. apply rbind_ok in El as (? & _ & El). apply rbind_ok in El as (ce & _ & El). injection El as <-. cbn [layout_new ly_id ly_bin] in H.
    unfold layout_to_svg in H. cbn [ly_bin ly_items] in H. apply rbind_ok in H as (b & Eb & H). apply rbind_ok in H as (outer & Eo & H). apply rbind_ok in H as (holes & Eh & H).
    apply rbind_ok in H as (zones & Ez & H). apply rbind_ok in H as (defs & Ed & H). apply rbind_ok in H as (uses & Eu & H). apply rbind_ok in H as (tree & _ & H).
    apply rbind_ok in H as (grid & _ & H). injection H as <-. unfold export_layout in E. apply rbind_ok in E as (pl & Ep' & E). injection E as <-.
    destruct (drawn_home _ _ _ _ _ _ A Eb) as (Hb & _). destruct (zones_traced _ _ _ _ Hb Ez) as (Z1 & Z2).
    split; cbn [sv_bin sv_holes sv_zones sv_uses sv_view jl_items snd].
    - rewrite (data_traced _ _ Eo). f_equal. apply Hb.
    - rewrite <- (bh_holes _ _ Hb), map_map. apply (rmapM_map_eq _ _ _ _ _) with (2 := Eh). intros h y _ Ey. apply rbind_ok in Ey as (dd & Edd & Ey). injection Ey as <-. cbn [snd].
      exact (data_traced _ _ Edd).
    - exact Z1.
    - exact Z2.
    - pose proof (uses_shown _ _ _ _ _ Eu Ep') as U. revert U. apply F2_impl. intros u w (E1 & E2 & E3). split; [exact E1|].
      destruct (nth_error fs (fst w)) as [f|] eqn:Ef; [|apply nth_error_None in Ef; lia]. exists f. split; [reflexivity|].
      destruct (defs_find o items fs 0%nat defs L Ki Ed (fst w) f Ef) as (y & Fy & Ty). unfold shown, defined. cbn [sv_defs]. rewrite E1. cbn [Nat.add] in Fy. rewrite Fy. cbn [option_map].
      rewrite Ty. cbn [option_map]. f_equal. apply map_ext. exact E3.
    - intros p Hp. apply (view_box c b p Hb); [|exact Hp]. rewrite (bh_box _ _ Hb). eapply shift_proper. apply A.
  Qed.

  (** *** all layouts *)
  Lemma solution_pictures : forall (P : bin -> jcontainer R -> fbin -> Prop) items o s ptr docs ct js fs, length fs = length items ->
    (forall i it q f, nth_error items i = Some (it, q) -> nth_error fs i = Some f -> item_at it i (fi_outline f)) ->
    (forall sn, In sn (so_layouts s) -> exists dx dy c, bin_at (ls_bin sn) dx dy c /\ P (ls_bin sn) (ct (ls_bin sn)) c) ->
    draw_solution pr pre items o s ptr = Ok docs -> compose_json pre items ct s = Ok js ->
    Forall2 (fun d l => exists b c, P b (jl_container l) c /\ pictures fs c (jl_items l) d) docs (js_layouts js).
  Proof.
    intros P items o s ptr docs ct js fs L Ki Kb H E. unfold draw_solution in H. unfold compose_json in E. apply rbind_ok in E as (ls & E & E'). injection E' as <-. cbn [js_layouts].
    revert docs ls H E Kb. induction (so_layouts s) as [|sn sl IH]; intros docs ls H E Kb; cbn [rmapM] in H, E.
    - injection H as <-. injection E as <-. constructor.
    - apply rbind_ok in H as (d & Ed & H). apply rbind_ok in H as (ds & Eds & H). injection H as <-.
      apply rbind_ok in E as (l & El & E). apply rbind_ok in E as (ls' & Els & E). injection E as <-.
      constructor; [|apply IH; [exact Eds|exact Els|]; intros x Hx; apply Kb; right; exact Hx].
      destruct (Kb sn (or_introl eq_refl)) as (dx & dy & c & A & Pc). exists (ls_bin sn), c. split; [|eapply layout_pictures; eassumption].
      unfold export_layout in El. apply rbind_ok in El as (? & _ & El). injection El as <-. exact Pc.
  Qed.
End A.
