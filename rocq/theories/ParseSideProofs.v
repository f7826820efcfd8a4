(** Files read with simplification: if no outline intersects itself, the packing of the
    simplified outlines is a packing of those of the file. *)
From Coq Require Import List Bool Arith ZArith Lia Permutation.
From Verif Require Import Base Num GeoModel HazardModel QTModel TransfModel HpgModel CdeModel CdeSpec
  PolyModel ParserModel SimplModel SlotMapModel LayoutModel ProblemModel ProblemSpec LbfModel IoModel ParseModel
  BaseProofs Instances ParityProofs PipProofs XformProofs RegionProofs RigidProofs LbfHistProofs ProblemProofs ProblemOpsProofs SimpleSpec SimpleThmProofs ParseProofs ParseThmProofs ParseSpProofs ParseDrawnProofs.
From Coq Require Import Reals Lra.
From Verif Require Import GeoModel HazardModel QTModel TransfModel HpgModel CdeModel CdeSpec GeoSpec PlaceSpec HpgSpec ShapeSpec SimplSpec LbfModel LbfSpec IoModel IoSpec ParseModel ParseSpec.
Import ListNotations.
Local Open Scope R_scope.
#[local] Existing Instance RTrig.

(** *** outlines *)
Definition tol_small (t : option R) : Prop := match t with Some t => 0 <= t < 1 | None => True end.
Lemma drawn_side : forall tol m v o, drawn tol m v o -> m = Inflate \/ tol_small tol -> simple v -> simple o /\ on_side m v o.
Proof.
  intros [t|] m v o (v' & Or & D) Hm Sv.
  - apply D; [|exact Sv]. destruct Hm as [->|Hm]; [left; reflexivity|right; apply Hm].
  - subst v'. destruct Or as [(-> & _)|(-> & _)]; (split; [first [exact Sv|apply simple_rev, Sv]|]); destruct m; intros q Q; try exact Q; apply region_rev; try exact Q.
Qed.
Lemma sketched_side : forall tol m s o, sketched tol m s o -> m = Inflate \/ tol_small tol -> simple (outline s) -> simple o /\ on_side m (outline s) o.
Proof. intros tol m s o H Hm Sv. unfold sketched in H. destruct s; try exact (drawn_side _ _ _ _ H Hm Sv). apply (drawn_side None _ _ _ H); [right; exact I|exact Sv]. Qed.

(** *** items and bins *)
Definition under (m : simpl_mode) (o v : list rpoint) : Prop := simple o /\ simple v /\ on_side m v o.
Definition under_item (f g : fitem) : Prop := under Inflate (fi_outline f) (fi_outline g) /\ fi_orient f = fi_orient g /\ fi_quality f = fi_quality g.
Definition under_zone (y z : nat * list rpoint) : Prop := fst y = fst z /\ under Inflate (snd y) (snd z).
Definition under_bin (f g : fbin) : Prop := under Deflate (fb_outer f) (fb_outer g) /\ Forall2 (under Inflate) (fb_holes f) (fb_holes g) /\ Forall2 under_zone (fb_zones f) (fb_zones g).
Lemma F2_map_in : forall {A B C} (P : A -> B -> Prop) (Q : B -> C -> Prop) (g : A -> C) l l', (forall a b, In a l -> P a b -> Q b (g a)) -> Forall2 P l l' -> Forall2 Q l' (map g l).
Proof.
  intros A B C P Q g l l' H F. induction F as [|a b l l' Ha F IH]; cbn [map]; constructor; [apply H; [left; reflexivity|exact Ha]|].
  apply IH. intros x y Hx. apply H. right. exact Hx.
Qed.
Lemma item_under : forall tol j f, item_of_file tol j f -> simple (fi_outline (file_item j)) -> under_item f (file_item j).
Proof.
  intros tol j f (A & B & C) Sj. destruct (sketched_side _ _ _ _ A (or_introl eq_refl) Sj) as (S1 & S2). split; [split; [exact S1|split; [exact Sj|exact S2]]|]. auto.
Qed.
Lemma bin_under : forall tol j f, tol_small tol -> bin_of_file tol j f -> simple_bins [file_bin j] -> under_bin f (file_bin j).
Proof.
  intros tol j f Ht (A & B & C) Sj. destruct (Sj _ (or_introl eq_refl)) as (So & Sh & Sz). unfold file_bin in So, Sh, Sz. cbn [fb_outer fb_holes fb_zones] in So, Sh, Sz.
  destruct (sketched_side _ _ _ _ A (or_intror Ht) So) as (S1 & S2). split; [split; [exact S1|split; [exact So|exact S2]]|]. unfold file_bin. cbn [fb_holes fb_zones]. split.
  - rewrite <- (map_id (cutouts _)). eapply F2_map_in; [|exact B]. intros v o Hv H. destruct (drawn_side _ _ _ _ H (or_introl eq_refl) (Sh _ Hv)) as (D1 & D2). split; auto.
  - eapply F2_map_in; [|exact C]. intros z z' Hz (E & S'). split; [exact E|].
    pose proof (Sz _ (in_map (fun z => (fst z, outline (snd z))) _ _ Hz)) as Sv. cbn [fst snd] in *.
    destruct (sketched_side _ _ _ _ S' (or_introl eq_refl) Sv) as (D1 & D2). split; auto.
Qed.

(** *** placements *)
Lemma put_motion : forall d, motion (compose (N := RNum) d).
Proof. intros d. exact (rt_affine (dt_rot d) (dt_tx d) (dt_ty d)). Qed.
Lemma region_put : forall d v o p, (forall q, region v q -> region o q) -> region (map (put d) v) p -> region (map (put d) o) p.
Proof.
  intros d v o p H Q. pose proof (put_motion d) as Mt. set (t := compose (N := RNum) d) in *.
  assert (E : forall l, map (put d) l = map (tr_point (N := RNum) t) l) by (intros l; apply map_ext; intros x; apply put_point).
  rewrite E in *. rewrite <- (inv_right t p Mt) in *. set (q := tr_point (N := RNum) (t_inverse (N := RNum) t) p) in *.
  apply region_moved; [exact (proj1 Mt)|]. apply H. destruct (rigid_sets t v q (proj1 Mt)) as (A & B & C). destruct Q as [Q|Q]; [left; apply A, Q|].
  destruct (on_border_dec v q) as [O|O]; [left; exact O|right]. apply B. split; [intros O'; apply O, A, O'|exact Q].
Qed.
Lemma under_occupies : forall fs gs x p, Forall2 under_item fs gs -> occupies gs x p -> occupies fs x p.
Proof.
  intros fs gs x p F (g & Hg & Rg). destruct (F2_nth_r _ _ _ _ _ F Hg) as (f & Hf & (_ & _ & L) & _). exists f. split; [exact Hf|].
  exact (region_put _ _ _ _ L Rg).
Qed.
Lemma under_packs : forall fs gs c d pl, Forall2 under_item fs gs -> under_bin c d -> packs fs c pl -> packs gs d pl.
Proof.
  intros fs gs c d pl F ((_ & So & Lo) & Lh & Lz) [P1 P2 P3 P4 P5 P6]. split.
  - intros x Hx. rewrite <- (F2_len _ _ _ F). exact (P1 x Hx).
  - intros i j x y p Hi Hj Ne Ox Oy. apply (P2 i j x y p Hi Hj Ne); eapply under_occupies; eassumption.
  - intros x p Hx Ox. apply (interior_mono (fb_outer c)); [exact So|exact Lo|]. apply (P3 x p Hx). eapply under_occupies; eassumption.
  - intros x h p Hx Hh Ox Rh. apply (F2_in_r _ _ _ _ Lh) in Hh as (h' & Hh' & _ & _ & L). apply (P4 x h' p Hx Hh'); [eapply under_occupies; eassumption|].
    apply L. exact Rh.
  - intros x i q z p Hx Hi Hz Ng Ox Rz. apply (F2_in_r _ _ _ _ Lz) in Hz as ([q' z'] & Hz' & Eq & _ & _ & L). cbn [fst snd] in *. subst q'.
    destruct (F2_nth_r _ _ _ _ _ F Hi) as (f & Hf & _ & _ & Q). apply (P5 x f q z' p Hx Hf Hz'); [rewrite Q; exact Ng|eapply under_occupies; eassumption|].
    apply L. exact Rz.
  - intros x i Hx Hi. destruct (F2_nth_r _ _ _ _ _ F Hi) as (f & Hf & _ & Q & _). rewrite <- Q. exact (P6 x f Hx Hf).
Qed.
Lemma under_clean_items : forall fs gs, Forall2 under_item fs gs -> clean_items fs.
Proof. intros fs gs F f Hf. apply (F2_in_l _ _ _ _ F) in Hf as (g & _ & (L & _) & _). exact (simple_spikes _ L). Qed.
Lemma under_clean_bins : forall fs gs, Forall2 under_bin fs gs -> clean_bins fs.
Proof.
  intros fs gs F f Hf. apply (F2_in_l _ _ _ _ F) in Hf as (g & _ & (Lo & _) & Lh & Lz). split; [exact (simple_spikes _ Lo)|]. split.
  - intros h Hh. apply (F2_in_l _ _ _ _ Lh) in Hh as (h' & _ & L & _). exact (simple_spikes _ L).
  - intros z Hz. apply (F2_in_l _ _ _ _ Lz) in Hz as (z' & _ & _ & L & _). exact (simple_spikes _ L).
Qed.
Lemma items_under : forall tol l fs, Forall2 (item_of_file tol) l fs -> simple_items (map file_item l) -> Forall2 under_item fs (map file_item l).
Proof. intros tol l fs F Sl. eapply F2_map_in; [|exact F]. intros j f Hj H. apply (item_under tol); [exact H|]. apply Sl. apply in_map. exact Hj. Qed.
Lemma bins_under : forall tol l fs, tol_small tol -> Forall2 (bin_of_file tol) l fs -> simple_bins (map file_bin l) -> Forall2 under_bin fs (map file_bin l).
Proof.
  intros tol l fs Ht F Sl. eapply F2_map_in; [|exact F]. intros j f Hj H. apply (bin_under tol); [exact Ht|exact H|]. intros f' [<-|[]]. apply Sl. apply in_map. exact Hj.
Qed.

Section D.
  Variable M : R.
  Context {X : Extra R} {ED : EqD (dtransf R)} {BS : BSearch} {G : Type} {RG : Rng R G}.
  Hypothesis BSok : bsearch_ok BS.
  #[local] Instance NSP : Num R := RNumT Reqb M.
  Variable umax : nat.
  Variable pr : parser R.
  Hypothesis Ep : @fPI R X = PI.

  Theorem side_bins : tol_small (pr_simpl pr) -> forall j ptr inst pres, parse umax pr j ptr = Ok (IBP inst, pres) ->
    exists bs, jn_bins j = Some bs /\
      (simple_items (map file_item (jn_items j)) -> simple_bins (map file_bin bs) ->
       forall cfg (g : G) ptr' p s p', lbf_bp inst cfg g ptr' = Ok (p, s, p') ->
       exists js, bp_export (pre_of pres) inst s = Ok js /\
         Forall (fun l => exists k jb, jl_container l = JBin k /\ nth_error bs k = Some jb /\
           packs (map file_item (jn_items j)) (file_bin jb) (jl_items l) /\ jl_items l <> []) (js_layouts js) /\
         (forall i ji, nth_error (jn_items j) i = Some ji -> (item_copies i (js_layouts js) <= ji_demand ji)%nat) /\
         (forall b jb n, nth_error bs b = Some jb -> jb_stock jb = Some n -> (bins_used b (js_layouts js) <= n)%nat)).
  Proof.
    intros Ht j ptr inst pres H. assert (Ht' : tol_ok (pr_simpl pr)) by (destruct (pr_simpl pr); [apply Ht|exact I]).
    destruct (e2e_bins M BSok umax pr Ht' Ep _ _ _ _ H) as (bs & fs & cs & Eb & Fi & Fb & K).
    exists bs. split; [exact Eb|]. intros Si Sb cfg g ptr' p s p' Hr.
    pose proof (items_under _ _ _ Fi Si) as Li. pose proof (bins_under _ _ _ Ht Fb Sb) as Lb.
    destruct (K (under_clean_items _ _ Li) (under_clean_bins _ _ Lb) cfg g ptr' p s p' Hr) as (js & Ej & Pk & Dm & St).
    exists js. split; [exact Ej|]. split; [|split; [exact Dm|]].
    - eapply Forall_impl; [|exact Pk]. intros l (k & c & A & B & C & D). destruct (F2_nth_r _ _ _ _ _ Fb B) as (jb & Hj & Q).
      exists k, jb. split; [exact A|]. split; [exact Hj|]. split; [|exact D]. apply (under_packs _ _ c _ _ Li); [|exact C].
      apply (bin_under _ _ _ Ht Q). intros f' [<-|[]]. apply Sb, in_map, (nth_error_In _ _ Hj).
    - intros b jb n Hb Hn. specialize (St b jb Hb). unfold stock_of in St. rewrite Hn in St. exact St.
  Qed.
  Theorem side_strip : tol_ok (pr_simpl pr) -> forall j ptr inst pres, parse umax pr j ptr = Ok (ISP inst, pres) ->
    exists hgt, jn_strip j = Some hgt /\
      (simple_items (map file_item (jn_items j)) -> 0 < hgt -> forall fuel tl c cfg (g : G) ptr' p s p', 0 <= tl ->
       lbf_sp fuel tl inst c cfg g ptr' = Ok (Some (p, s, p')) ->
       exists w pl u us, sp_export (pre_of pres) inst s = Ok (JS us [JL (JStrip w hgt) pl u]) /\ 0 < w /\
         packing (map file_item (jn_items j)) (strip_outline w hgt) [] [] pl /\
         forall i ji, nth_error (jn_items j) i = Some ji -> length (filter (Nat.eqb i) (map fst pl)) = ji_demand ji).
  Proof.
    intros Ht j ptr inst pres H. destruct (e2e_strip M BSok umax pr Ht Ep _ _ _ _ H) as (hgt & fs & Eh & Fi & K).
    exists hgt. split; [exact Eh|]. intros Si Hh fuel tl c cfg g ptr' p s p' Htl Hr. pose proof (items_under _ _ _ Fi Si) as Li.
    destruct (K (under_clean_items _ _ Li) Hh fuel tl c cfg g ptr' p s p' Htl Hr) as (w & pl & u & us & A & B & C & D).
    exists w, pl, u, us. split; [exact A|]. split; [exact B|]. split; [|exact D].
    destruct C as [P1 P2 P3 P4 P5 P6]. split.
    - intros x Hx. rewrite <- (F2_len _ _ _ Li). exact (P1 x Hx).
    - intros i k x y q Hi Hj Ne Ox Oy. apply (P2 i k x y q Hi Hj Ne); eapply under_occupies; eassumption.
    - intros x q Hx Ox. apply (P3 x q Hx). eapply under_occupies; eassumption.
    - intros x h q _ [].
    - intros x i q z r _ _ [].
    - intros x i Hx Hi. destruct (F2_nth_r _ _ _ _ _ Li Hi) as (f & Hf & _ & Q & _). rewrite <- Q. exact (P6 x f Hx Hf).
  Qed.
End D.
