(** Reading instances whose items are moved. *)
From Coq Require Import List Bool Arith Lia.
From Verif Require Import Base Num GeoModel HazardModel QTModel TransfModel HpgModel CdeModel CdeSpec
  PolyModel ParserModel SimplModel SlotMapModel LayoutModel ProblemModel ProblemSpec LbfModel IoModel ParseModel
  BaseProofs Instances RigidProofs NormProofs XformProofs ParseProofs ParseThmProofs ShiftProofs ShiftParseProofs.
From Coq Require Import Reals Lra.
From Verif Require Import GeoModel HazardModel QTModel TransfModel HpgModel CdeModel CdeSpec GeoSpec PlaceSpec HpgSpec ShapeSpec SimplSpec LbfModel LbfSpec IoModel IoSpec ParseModel ParseSpec ShiftSpec.
Import ListNotations.
Local Open Scope R_scope.
#[local] Existing Instance RTrig.

Section I.
  Variable M : R.
  Context {X : Extra R} {ED : EqD (dtransf R)} {BS : BSearch}.
  Local Notation NM := (RNumT Reqb M).
  Variable umax : nat.
  Variable pr : parser R.
  Hypothesis Hc : pr_center pr = true.
  Hypothesis Hp : sc_nff_piers (pr_surr pr) = 0%nat.
  Lemma item_anywhere : forall v j id it pre n, movable v j -> parse_item (N := NM) pr j id = Ok (it, pre, n) ->
    exists pre', parse_item (N := NM) pr (item_at v j) id = Ok (it, pre', n) /\
      forall p, tr_point (N := RNum) pre' (shifted (fst v) (snd v) p) = tr_point (N := RNum) pre p.
  Proof.
    intros [dx dy] [d o s q] id it pre n Mv H. unfold item_at. cbn [ji_demand ji_orient ji_shape ji_quality fst snd]. destruct s as [w h|l|a b|].
    - destruct Mv as [[]|E]. injection E as -> ->. cbn [moved_shape]. exists pre. split; [exact H|]. intros p. rewrite shift0. reflexivity.
    - cbn [moved_shape]. exact (centred_reads M pr dx dy Hc Hp _ _ _ _ _ _ _ _ H).
    - discriminate H.
    - discriminate H.
  Qed.
  Lemma items_anywhere : forall l vs k xs, length vs = length l -> Forall (fun p => movable (fst p) (snd p)) (combine vs l) ->
    rmapM (fun p => parse_item (N := NM) pr (snd p) (fst p)) (combine (seq k (length l)) l) = Ok xs ->
    exists xs', rmapM (fun p => parse_item (N := NM) pr (snd p) (fst p)) (combine (seq k (length (items_at vs l))) (items_at vs l)) = Ok xs' /\
      map (fun x => (fst (fst x), snd x)) xs' = map (fun x => (fst (fst x), snd x)) xs /\
      forall i v p, nth_error vs i = Some v -> tr_point (N := RNum) (nth i (map (fun x => snd (fst x)) xs') (t_empty (N := NM))) (shifted (fst v) (snd v) p) =
        tr_point (N := RNum) (nth i (map (fun x => snd (fst x)) xs) (t_empty (N := NM))) p.
  Proof.
    induction l as [|j l IH]; intros [|v vs] k xs L Fm H; try discriminate L.
    - injection H as <-. exists []. split; [reflexivity|]. split; [reflexivity|]. intros [|i] v p E; discriminate E.
    - cbn [length seq combine rmapM fst snd] in H. apply rbind_ok in H as ([[it pre] n] & E & H). apply rbind_ok in H as (ys & Ey & H). injection H as <-.
      destruct (item_anywhere v j k it pre n (Forall_inv Fm) E) as (pre' & E' & K).
      destruct (IH vs (S k) ys ltac:(cbn in L; congruence) (Forall_inv_tail Fm) Ey) as (ys' & Ey' & Q & T).
      exists ((it, pre', n) :: ys'). unfold items_at in *. cbn [combine map length seq rmapM fst snd]. rewrite E'. cbn [rbind]. rewrite Ey'. cbn [rbind].
      split; [reflexivity|]. split; [f_equal; exact Q|]. intros [|i] v' p Ev; cbn [nth_error nth] in *; [injection Ev as <-; exact (K p)|exact (T i v' p Ev)].
  Qed.
  Theorem instance_anywhere : forall items bs h vs ptr inst pres, length vs = length items -> Forall (fun p => movable (fst p) (snd p)) (combine vs items) ->
    parse (N := NM) umax pr (JIn items bs h) ptr = Ok (inst, pres) ->
    exists pres', parse (N := NM) umax pr (JIn (items_at vs items) bs h) ptr = Ok (inst, pres') /\
      forall i v p, nth_error vs i = Some v -> tr_point (N := RNum) (pre_of (N := NM) pres' i) (shifted (fst v) (snd v) p) = tr_point (N := RNum) (pre_of (N := NM) pres i) p.
  Proof.
    intros items bs h vs ptr inst pres L Fm H. unfold parse in *. cbn [jn_items jn_bins jn_strip] in *. apply rbind_ok in H as (xs & Ex & H).
    destruct (items_anywhere items vs 0 xs L Fm Ex) as (xs' & Ex' & Q & T). rewrite Ex'. cbn [rbind]. rewrite Q. unfold pre_of.
    exists (map (fun x => snd (fst x)) xs'). destruct bs as [bs|], h as [h|]; try discriminate H.
    - apply rbind_ok in H as (b & Eb & H). apply rbind_ok in H as (i & Ei & H). injection H as <- <-. rewrite Eb. cbn [rbind]. rewrite Ei. split; [reflexivity|exact T].
    - apply rbind_ok in H as (i & Ei & H). injection H as <- <-. rewrite Ei. split; [reflexivity|exact T].
  Qed.
End I.
