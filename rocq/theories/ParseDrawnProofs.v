(** Files read without simplification: the outlines are those of the file, up to the
    direction in which they are traversed. *)
From Coq Require Import List Bool Arith ZArith Lia Permutation.
From Verif Require Import Base Num GeoModel HazardModel QTModel TransfModel HpgModel CdeModel CdeSpec
  PolyModel ParserModel SimplModel SlotMapModel LayoutModel ProblemModel ProblemSpec LbfModel IoModel ParseModel
  BaseProofs Instances ParityProofs PipProofs ProblemProofs ProblemOpsProofs ParseProofs ParseThmProofs ParseSpProofs.
From Coq Require Import Reals Lra.
From Verif Require Import GeoModel HazardModel QTModel TransfModel HpgModel CdeModel CdeSpec GeoSpec PlaceSpec HpgSpec ShapeSpec SimplSpec LbfModel LbfSpec IoModel IoSpec ParseModel ParseSpec.
Import ListNotations.
Local Open Scope R_scope.
#[local] Existing Instance RTrig.

(** *** the direction of an outline does not matter *)
Definition like (o v : list rpoint) : Prop := o = v \/ o = rev v.
Lemma like_region : forall o v p, like o v -> region o p <-> region v p.
Proof. intros o v p [->| ->]; [reflexivity|]. unfold region. rewrite on_border_rev, even_odd_rev. reflexivity. Qed.
Lemma like_interior : forall o v p, like o v -> interior o p <-> interior v p.
Proof. intros o v p [->| ->]; [reflexivity|]. unfold interior. rewrite on_border_rev, even_odd_rev. reflexivity. Qed.
Lemma like_map : forall f o v, like o v -> like (map f o) (map f v).
Proof. intros f o v [->| ->]; [left; reflexivity|right; apply map_rev]. Qed.
Lemma like_spikes : forall o v, like o v -> no_spikes v -> no_spikes o.
Proof.
  intros o v [->| ->] H; [exact H|]. intros e f He Hf. apply (Permutation_in _ (ring_rev v)) in He, Hf.
  apply in_map_iff in He as (e' & <- & He). apply in_map_iff in Hf as (f' & <- & Hf). cbn [e_reverse es ee]. intros E D.
  specialize (H _ _ Hf He (eq_sym E)). unfold edet, edot in *. cbn [e_reverse es ee] in *. assert (0 < edot f' e'); unfold edot in *; [apply H; lra|lra].
Qed.
Lemma drawn_like : forall m v o, drawn None m v o -> like o v.
Proof. intros m v o (v' & [(-> & _)|(-> & _)] & ->); [left|right]; reflexivity. Qed.
Lemma sketched_like : forall m s o, sketched None m s o -> like o (outline s).
Proof. intros m s o H. unfold sketched in H. eapply drawn_like. destruct s; exact H. Qed.
Definition like_item (f g : fitem) : Prop := like (fi_outline f) (fi_outline g) /\ fi_orient f = fi_orient g /\ fi_quality f = fi_quality g.
Definition like_zone (y z : nat * list rpoint) : Prop := fst y = fst z /\ like (snd y) (snd z).
Definition like_bin (f g : fbin) : Prop := like (fb_outer f) (fb_outer g) /\ Forall2 like (fb_holes f) (fb_holes g) /\ Forall2 like_zone (fb_zones f) (fb_zones g).
Lemma item_like : forall j f, item_of_file None j f -> like_item f (file_item j).
Proof. intros j f (A & B & C). split; [exact (sketched_like _ _ _ A)|]. auto. Qed.
Lemma F2_map_r : forall {A B C} (P : A -> B -> Prop) (Q : B -> C -> Prop) (g : A -> C) l l', (forall a b, P a b -> Q b (g a)) -> Forall2 P l l' -> Forall2 Q l' (map g l).
Proof. intros A B C P Q g l l' H F. induction F; cbn [map]; constructor; auto. Qed.
Lemma bin_like : forall j f, bin_of_file None j f -> like_bin f (file_bin j).
Proof.
  intros j f (A & B & C). split; [exact (sketched_like _ _ _ A)|]. unfold file_bin. cbn [fb_holes fb_zones]. split.
  - rewrite <- (map_id (cutouts _)). eapply F2_map_r; [|exact B]. intros v o H. exact (drawn_like _ _ _ H).
  - eapply F2_map_r; [|exact C]. intros z z' (E & S'). split; [exact E|]. exact (sketched_like _ _ _ S').
Qed.

Lemma F2_nth_l : forall {A B} (P : A -> B -> Prop) l l' i a, Forall2 P l l' -> nth_error l i = Some a -> exists b, nth_error l' i = Some b /\ P a b.
Proof.
  intros A B P l l' i a F. revert i. induction F as [|x y l l' Hx F IH]; intros [|i] H; cbn in *; try discriminate; [injection H as <-; eauto|exact (IH _ H)].
Qed.
Lemma F2_nth_r : forall {A B} (P : A -> B -> Prop) l l' i b, Forall2 P l l' -> nth_error l' i = Some b -> exists a, nth_error l i = Some a /\ P a b.
Proof.
  intros A B P l l' i a F. revert i. induction F as [|x y l l' Hx F IH]; intros [|i] H; cbn in *; try discriminate; [injection H as <-; eauto|exact (IH _ H)].
Qed.
Lemma F2_len : forall {A B} (P : A -> B -> Prop) l l', Forall2 P l l' -> length l = length l'.
Proof. intros A B P l l' F. induction F; cbn [length]; congruence. Qed.

Lemma like_occupies : forall fs gs x p, Forall2 like_item fs gs -> occupies gs x p -> occupies fs x p.
Proof.
  intros fs gs x p F (g & Hg & Rg). destruct (F2_nth_r _ _ _ _ _ F Hg) as (f & Hf & L & _). exists f. split; [exact Hf|].
  apply (like_region _ _ p (like_map (put (snd x)) _ _ L)). exact Rg.
Qed.
Lemma like_packs : forall fs gs c d pl, Forall2 like_item fs gs -> like_bin c d -> packs fs c pl -> packs gs d pl.
Proof.
  intros fs gs c d pl F (Lo & Lh & Lz) [P1 P2 P3 P4 P5 P6]. split.
  - intros x Hx. rewrite <- (F2_len _ _ _ F). exact (P1 x Hx).
  - intros i j x y p Hi Hj Ne Ox Oy. apply (P2 i j x y p Hi Hj Ne); eapply like_occupies; eassumption.
  - intros x p Hx Ox. apply (like_interior _ _ p Lo). apply (P3 x p Hx). eapply like_occupies; eassumption.
  - intros x h p Hx Hh Ox Rh. apply (F2_in_r _ _ _ _ Lh) in Hh as (h' & Hh' & L). apply (P4 x h' p Hx Hh'); [eapply like_occupies; eassumption|].
    apply (like_region _ _ p L). exact Rh.
  - intros x i q z p Hx Hi Hz Ng Ox Rz. apply (F2_in_r _ _ _ _ Lz) in Hz as ([q' z'] & Hz' & Eq & L). cbn [fst snd] in *. subst q'.
    destruct (F2_nth_r _ _ _ _ _ F Hi) as (f & Hf & _ & _ & Q). apply (P5 x f q z' p Hx Hf Hz'); [rewrite Q; exact Ng|eapply like_occupies; eassumption|].
    apply (like_region _ _ p L). exact Rz.
  - intros x i Hx Hi. destruct (F2_nth_r _ _ _ _ _ F Hi) as (f & Hf & _ & Q & _). rewrite <- Q. exact (P6 x f Hx Hf).
Qed.
Lemma like_clean_items : forall fs gs, Forall2 like_item fs gs -> clean_items gs -> clean_items fs.
Proof.
  intros fs gs F C f Hf. apply (F2_in_l _ _ _ _ F) in Hf as (g & Hg & L & _). exact (like_spikes _ _ L (C g Hg)).
Qed.
Lemma like_clean_bins : forall fs gs, Forall2 like_bin fs gs -> clean_bins gs -> clean_bins fs.
Proof.
  intros fs gs F C f Hf. apply (F2_in_l _ _ _ _ F) in Hf as (g & Hg & Lo & Lh & Lz). destruct (C g Hg) as (C1 & C2 & C3).
  split; [exact (like_spikes _ _ Lo C1)|]. split.
  - intros h Hh. apply (F2_in_l _ _ _ _ Lh) in Hh as (h' & Hh' & L). exact (like_spikes _ _ L (C2 _ Hh')).
  - intros z Hz. apply (F2_in_l _ _ _ _ Lz) in Hz as (z' & Hz' & _ & L). exact (like_spikes _ _ L (C3 _ Hz')).
Qed.

Section D.
  Variable M : R.
  Context {X : Extra R} {ED : EqD (dtransf R)} {BS : BSearch} {G : Type} {RG : Rng R G}.
  Hypothesis BSok : bsearch_ok BS.
  #[local] Instance NDP : Num R := RNumT Reqb M.
  Variable umax : nat.
  Variable pr : parser R.
  Hypothesis Hs : pr_simpl pr = None.
  Hypothesis Ep : @fPI R X = PI.
  Lemma none_ok : tol_ok (pr_simpl pr).
  Proof. rewrite Hs. exact I. Qed.

  Theorem drawn_bins : forall j ptr inst pres, parse umax pr j ptr = Ok (IBP inst, pres) ->
    exists bs, jn_bins j = Some bs /\
      (clean_items (map file_item (jn_items j)) -> clean_bins (map file_bin bs) ->
       forall cfg (g : G) ptr' p s p', lbf_bp inst cfg g ptr' = Ok (p, s, p') ->
       exists js, bp_export (pre_of pres) inst s = Ok js /\
         Forall (fun l => exists k jb, jl_container l = JBin k /\ nth_error bs k = Some jb /\
           packs (map file_item (jn_items j)) (file_bin jb) (jl_items l) /\ jl_items l <> []) (js_layouts js) /\
         (forall i ji, nth_error (jn_items j) i = Some ji -> (item_copies i (js_layouts js) <= ji_demand ji)%nat) /\
         (forall b jb n, nth_error bs b = Some jb -> jb_stock jb = Some n -> (bins_used b (js_layouts js) <= n)%nat)).
  Proof.
    intros j ptr inst pres H. destruct (e2e_bins M BSok umax pr none_ok Ep _ _ _ _ H) as (bs & fs & cs & Eb & Fi & Fb & K). rewrite Hs in Fi, Fb.
    pose proof (F2_map_r _ _ _ _ _ item_like Fi) as Li. pose proof (F2_map_r _ _ _ _ _ bin_like Fb) as Lb.
    exists bs. split; [exact Eb|]. intros Ci Cb cfg g ptr' p s p' Hr.
    destruct (K (like_clean_items _ _ Li Ci) (like_clean_bins _ _ Lb Cb) cfg g ptr' p s p' Hr) as (js & Ej & Pk & Dm & St).
    exists js. split; [exact Ej|]. split; [|split; [exact Dm|]].
    - eapply Forall_impl; [|exact Pk]. intros l (k & c & A & B & C & D). destruct (F2_nth_r _ _ _ _ _ Fb B) as (jb & Hj & Q).
      exists k, jb. split; [exact A|]. split; [exact Hj|]. split; [|exact D]. exact (like_packs _ _ _ _ _ Li (bin_like _ _ Q) C).
    - intros b jb n Hb Hn. specialize (St b jb Hb). unfold stock_of in St. rewrite Hn in St. exact St.
  Qed.
  Theorem drawn_strip : forall j ptr inst pres, parse umax pr j ptr = Ok (ISP inst, pres) ->
    exists hgt, jn_strip j = Some hgt /\
      (clean_items (map file_item (jn_items j)) -> 0 < hgt -> forall fuel tl c cfg (g : G) ptr' p s p', 0 <= tl ->
       lbf_sp fuel tl inst c cfg g ptr' = Ok (Some (p, s, p')) ->
       exists w pl u us, sp_export (pre_of pres) inst s = Ok (JS us [JL (JStrip w hgt) pl u]) /\ 0 < w /\
         packing (map file_item (jn_items j)) (strip_outline w hgt) [] [] pl /\
         forall i ji, nth_error (jn_items j) i = Some ji -> length (filter (Nat.eqb i) (map fst pl)) = ji_demand ji).
  Proof.
    intros j ptr inst pres H. destruct (e2e_strip M BSok umax pr none_ok Ep _ _ _ _ H) as (hgt & fs & Eh & Fi & K). rewrite Hs in Fi.
    pose proof (F2_map_r _ _ _ _ _ item_like Fi) as Li.
    exists hgt. split; [exact Eh|]. intros Ci Hh fuel tl c cfg g ptr' p s p' Htl Hr.
    destruct (K (like_clean_items _ _ Li Ci) Hh fuel tl c cfg g ptr' p s p' Htl Hr) as (w & pl & u & us & A & B & C & D).
    exists w, pl, u, us. split; [exact A|]. split; [exact B|]. split; [|exact D].
    apply (like_packs fs _ (FB (strip_outline w hgt) [] []) (FB (strip_outline w hgt) [] []) pl Li); [|exact C].
    split; [left; reflexivity|]. split; constructor.
  Qed.
End D.
