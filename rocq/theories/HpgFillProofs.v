(** The boundary fill visits every cell at most once and exactly the reachable ones. *)
From Coq Require Import List Bool Arith Lia.
From Verif Require Import Base Num GeoModel HazardModel HpgModel BaseProofs HpgSpec HpgGridProofs.
Import ListNotations.

Section Fill.
  Context {F : Type} {N : Num F} {BS : BSearch} {T : Type}.
  Variable g : grid F T.
  Local Notation nr := (n_rows g).
  Local Notation nc := (n_cols g).
  Local Notation n := (nr * nc).

  Lemma NoDup_app_iff_r : forall {A} (l : list A) x, NoDup l -> ~ In x l -> NoDup (l ++ [x]).
  Proof.
    intros A l x H. induction H as [|y l Hy ND IH]; intros Hx; simpl; [repeat constructor; intros []|].
    constructor; [|apply IH; intros K; apply Hx; right; exact K]. rewrite in_app_iff. simpl. intros [K|[K|[]]]; [contradiction|]. subst. apply Hx. left. reflexivity.
  Qed.
  Record sinv (b : bfill) (vis : list nat) : Prop := {
    si_len : length (bf_state b) = n;
    si_vis : forall i, nth_error (bf_state b) i = Some Visited <-> In i vis;
    si_que : forall i, nth_error (bf_state b) i = Some Queued <-> In i (bf_queue b);
    si_ndq : NoDup (bf_queue b);
    si_ndv : NoDup vis;
    si_cnt : bf_nvis b = length vis
  }.
  Lemma sinv_lt : forall b vis, sinv b vis -> forall i, In i vis \/ In i (bf_queue b) -> i < n.
  Proof.
    intros b vis I i H. rewrite <- (si_len b vis I). apply nth_error_Some.
    destruct H as [H|H]; [apply (si_vis b vis I) in H|apply (si_que b vis I) in H]; congruence.
  Qed.
  Lemma sinv_disj : forall b vis, sinv b vis -> forall i, In i vis -> In i (bf_queue b) -> False.
  Proof. intros b vis I i A B. apply (si_vis b vis I) in A. apply (si_que b vis I) in B. congruence. Qed.

  Lemma update_ok : forall f l i s s', nth_error l i = Some s -> f s = Ok s' -> cs_update f l i = Ok (vset i s' l).
  Proof. intros f l i s s' A B. unfold cs_update. rewrite A. cbn [expect rbind]. rewrite B. reflexivity. Qed.
  Lemma nth_lt : forall {A} (l : list A) i x, nth_error l i = Some x -> i < length l.
  Proof. intros A l i x H. apply nth_error_Some. congruence. Qed.

  Lemma pop_ok : forall b vis c r, sinv b vis -> bf_queue b = c :: r ->
    exists b1, bf_pop b = Ok (Some c, b1) /\ sinv b1 (vis ++ [c]) /\ bf_queue b1 = r /\
      bf_rows b1 = bf_rows b /\ bf_cols b1 = bf_cols b /\ bf_seeded b1 = bf_seeded b.
  Proof.
    intros b vis c r I E. unfold bf_pop. rewrite E.
    assert (Qc : nth_error (bf_state b) c = Some Queued) by (apply (si_que b vis I); rewrite E; left; reflexivity).
    rewrite (update_ok cs_visit _ c _ _ Qc eq_refl). cbn [rbind]. eexists. split; [reflexivity|].
    pose proof (nth_lt _ _ _ Qc) as Lc. pose proof (si_ndq b vis I) as Nq. rewrite E in Nq. inversion Nq as [|? ? Nc Nr]; subst.
    split; [|auto]. split; cbn [bf_state bf_queue bf_nvis].
    - rewrite vset_length. apply (si_len b vis I).
    - intros i. rewrite in_app_iff. destruct (Nat.eq_dec c i) as [->|Ne].
      + rewrite vset_eq by exact Lc. split; [simpl; auto|reflexivity].
      + rewrite vset_neq by exact Ne. rewrite (si_vis b vis I). simpl. split; [auto|]. intros [H|[H|[]]]; [exact H|contradiction].
    - intros i. destruct (Nat.eq_dec c i) as [->|Ne].
      + rewrite vset_eq by exact Lc. split; [discriminate|contradiction].
      + rewrite vset_neq by exact Ne. rewrite (si_que b vis I), E. simpl. split; [intros [H|H]; [contradiction|exact H]|auto].
    - exact Nr.
    - assert (X : ~ In c vis) by (intros K; apply (si_vis b vis I) in K; congruence).
      apply NoDup_app_iff_r; [apply (si_ndv b vis I)|exact X].
    - rewrite app_length. simpl. rewrite (si_cnt b vis I). lia.
  Qed.

  Lemma drain_ok : forall q st, NoDup q -> (forall i, In i q -> nth_error st i = Some Queued) ->
    exists st', rfold (cs_update cs_dequeue) q st = Ok st' /\ length st' = length st /\
      (forall i, In i q -> nth_error st' i = Some NotQueued) /\
      (forall i, ~ In i q -> nth_error st' i = nth_error st i).
  Proof.
    induction q as [|c q IH]; intros st ND H; cbn [rfold].
    - exists st. repeat split; auto. intros i [].
    - inversion ND as [|? ? Nc Nq]; subst. pose proof (H c (or_introl eq_refl)) as Qc.
      rewrite (update_ok cs_dequeue _ c _ _ Qc eq_refl). cbn [rbind].
      destruct (IH (vset c NotQueued st) Nq) as (st' & E & L & A & B).
      { intros i Hi. rewrite vset_neq; [apply H; right; exact Hi|]. intros ->. contradiction. }
      exists st'. split; [exact E|]. rewrite L, vset_length. split; [reflexivity|]. split.
      + intros i [<-|Hi]; [|apply A; exact Hi]. rewrite B by exact Nc. apply vset_eq. exact (nth_lt _ _ _ Qc).
      + intros i Hi. rewrite B by (intros K; apply Hi; right; exact K). apply vset_neq. intros ->. apply Hi. left. reflexivity.
  Qed.

  Lemma queue_ok : forall ns b vis, sinv b vis -> (forall i, In i ns -> i < n) ->
    exists b', rfold bf_queue_neighbor ns b = Ok b' /\ sinv b' vis /\
      bf_rows b' = bf_rows b /\ bf_cols b' = bf_cols b /\ bf_seeded b' = bf_seeded b /\
      (forall i, In i (bf_queue b') <-> In i (bf_queue b) \/ (In i ns /\ ~ In i vis)).
  Proof.
    induction ns as [|c ns IH]; intros b vis I H; cbn [rfold].
    - exists b. split; [reflexivity|]. split; [exact I|]. repeat split; auto. intros [K|[[] _]]; exact K.
    - assert (Lc : c < n) by (apply H; left; reflexivity). unfold bf_queue_neighbor at 1.
      destruct (nth_error (bf_state b) c) as [s|] eqn:Es; [|exfalso; apply nth_error_None in Es; rewrite (si_len b vis I) in Es; lia].
      cbn [expect rbind].
      assert (H' : forall i, In i ns -> i < n) by (intros i Hi; apply H; right; exact Hi).
      destruct s.
      + rewrite (update_ok cs_queue _ c _ _ Es eq_refl). cbn [rbind].
        assert (Nq : ~ In c (bf_queue b)) by (intros K; apply (si_que b vis I) in K; congruence).
        assert (Nv : ~ In c vis) by (intros K; apply (si_vis b vis I) in K; congruence).
        pose proof (nth_lt _ _ _ Es) as Lb.
        destruct (IH (BF (vset c Queued (bf_state b)) (bf_rows b) (bf_cols b) (bf_queue b ++ [c]) (bf_nvis b) (bf_seeded b)) vis) as (b' & E & I' & A1 & A2 & A3 & A4); [|exact H'|].
        { split; cbn [bf_state bf_queue bf_nvis].
          - rewrite vset_length. apply (si_len b vis I).
          - intros i. destruct (Nat.eq_dec c i) as [<-|Ne].
            + rewrite vset_eq by exact Lb. split; [discriminate|contradiction].
            + rewrite vset_neq by exact Ne. apply (si_vis b vis I).
          - intros i. rewrite in_app_iff. destruct (Nat.eq_dec c i) as [<-|Ne].
            + rewrite vset_eq by exact Lb. simpl. split; auto.
            + rewrite vset_neq by exact Ne. rewrite (si_que b vis I). simpl. split; [auto|]. intros [K|[K|[]]]; [exact K|contradiction].
          - apply NoDup_app_iff_r; [apply (si_ndq b vis I)|exact Nq].
          - apply (si_ndv b vis I).
          - apply (si_cnt b vis I). }
        exists b'. cbn [bf_rows bf_cols bf_seeded bf_queue] in *. split; [exact E|]. split; [exact I'|].
        split; [exact A1|]. split; [exact A2|]. split; [exact A3|]. intros i. rewrite A4, in_app_iff. simpl.
        split; [intros [[K|[<-|[]]]|[K K']]; auto|]. intros [K|[[<-|K] K']]; auto.
      + destruct (IH b vis I H') as (b' & E & I' & A1 & A2 & A3 & A4). exists b'. split; [exact E|]. split; [exact I'|].
        split; [exact A1|]. split; [exact A2|]. split; [exact A3|]. intros i. rewrite A4. simpl.
        assert (Vc : In c vis) by (apply (si_vis b vis I); exact Es).
        split; [intros [K|[K K']]; auto|]. intros [K|[[<-|K] K']]; auto. contradiction.
      + destruct (IH b vis I H') as (b' & E & I' & A1 & A2 & A3 & A4). exists b'. split; [exact E|]. split; [exact I'|].
        split; [exact A1|]. split; [exact A2|]. split; [exact A3|]. intros i. rewrite A4. simpl.
        assert (Qc : In c (bf_queue b)) by (apply (si_que b vis I); exact Es).
        split; [intros [K|[K K']]; auto|]. intros [K|[[<-|K] K']]; auto.
  Qed.

  (** the neighbours of a visited cell end up visited or queued *)
  Lemma spread_ok : forall b vis c, sinv b vis -> In c vis ->
    exists b', rfold bf_queue_neighbor (get_neighbors g c) b = Ok b' /\ sinv b' vis /\
      bf_rows b' = bf_rows b /\ bf_cols b' = bf_cols b /\ bf_seeded b' = bf_seeded b /\
      (forall i, In i (bf_queue b) -> In i (bf_queue b')) /\
      (forall i, In i (bf_queue b') -> In i (bf_queue b) \/ (i < n /\ touching nc c i)) /\
      (forall i, i < n -> touching nc c i -> In i vis \/ In i (bf_queue b')).
  Proof.
    intros b vis c I V. assert (Lc : c < n) by (apply (sinv_lt b vis I); auto).
    destruct (queue_ok (get_neighbors g c) b vis I) as (b' & E & I' & A1 & A2 & A3 & A4).
    { intros i Hi. apply neighbors_spec in Hi; [tauto|exact Lc]. }
    exists b'. split; [exact E|]. split; [exact I'|]. split; [exact A1|]. split; [exact A2|]. split; [exact A3|].
    split; [intros i Hi; apply A4; auto|]. split.
    - intros i Hi. apply A4 in Hi. destruct Hi as [Hi|[Hi _]]; [auto|]. apply neighbors_spec in Hi; [|exact Lc]. tauto.
    - intros i Li Ti. destruct (in_dec Nat.eq_dec i vis) as [K|K]; [auto|]. right. apply A4. right. split; [|exact K].
      apply neighbors_spec; [exact Lc|]. repeat split; try apply Ti; [exact Li|]. intros ->. contradiction.
  Qed.

  (** what reporting cell [c] does to the queue; [open] = the neighbours are added,
      [keep] = the old queue is kept *)
  Definition spreads (open keep : Prop) (b b' : bfill) (vis : list nat) (c : nat) : Prop :=
    (keep -> forall i, In i (bf_queue b) -> In i (bf_queue b')) /\
    (forall i, In i (bf_queue b') -> (keep /\ In i (bf_queue b)) \/ (open /\ i < n /\ touching nc c i)) /\
    (open -> forall i, i < n -> touching nc c i -> In i vis \/ In i (bf_queue b')).

  Lemma report_seeded : forall b vis c p, sinv b vis -> In c vis -> bf_seeded b = true ->
    exists b', bf_report b c p g = Ok b' /\ sinv b' vis /\ bf_seeded b' = true /\
      bf_rows b' = bf_rows b /\ bf_cols b' = bf_cols b /\ spreads (p = Interior) True b b' vis c.
  Proof.
    intros b vis c p I V S. unfold bf_report. rewrite S. destruct p; cbn [rbind].
    - exists b. repeat split; auto; try apply I; discriminate.
    - destruct (spread_ok b vis c I V) as (b' & E & I' & A1 & A2 & A3 & A4 & A5 & A6). exists b'.
      rewrite A3. split; [exact E|]. split; [exact I'|]. split; [exact S|]. split; [exact A1|]. split; [exact A2|]. split; [intros _; exact A4|]. split.
      + intros i Hi. destruct (A5 i Hi) as [K|K]; auto.
      + intros _. exact A6.
  Qed.
  Lemma in_rangeP : forall r i, in_range r i = true <-> fst r <= i <= snd r.
  Proof. intros r i. unfold in_range. rewrite andb_true_iff, !Nat.leb_le. tauto. Qed.
  Lemma report_outside : forall b vis c, sinv b vis -> In c vis -> bf_seeded b = false ->
    exists b', bf_report b c Exterior g = Ok b' /\ sinv b' vis /\ bf_seeded b' = false /\
      bf_rows b' = bf_rows b /\ bf_cols b' = bf_cols b /\
      spreads (in_box nc (bf_rows b) (bf_cols b) c) True b b' vis c.
  Proof.
    intros b vis c I V S. unfold bf_report. rewrite S. unfold to_row_col.
    assert (Lc : c < n) by (apply (sinv_lt b vis I); auto). rewrite (proj2 (Nat.ltb_lt c n) Lc). cbn [expect rbind].
    destruct (in_range (bf_rows b) (Nat.div c nc) && in_range (bf_cols b) (Nat.modulo c nc)) eqn:B.
    - apply andb_true_iff in B. rewrite !in_rangeP in B.
      destruct (spread_ok b vis c I V) as (b' & E & I' & A1 & A2 & A3 & A4 & A5 & A6). exists b'.
      rewrite A3. split; [exact E|]. split; [exact I'|]. split; [exact S|]. split; [exact A1|]. split; [exact A2|]. split; [intros _; exact A4|]. split.
      + intros i Hi. destruct (A5 i Hi) as [K|K]; [auto|]. right. split; [exact B|exact K].
      + intros _. exact A6.
    - exists b. repeat split; auto; try apply I. intros K. exfalso. destruct K as [K1 K2]. apply in_rangeP in K1. apply in_rangeP in K2.
      rewrite K1, K2 in B. discriminate.
  Qed.
  Lemma report_seed : forall b vis c, sinv b vis -> In c vis -> bf_seeded b = false ->
    exists b', bf_report b c Interior g = Ok b' /\ sinv b' vis /\ bf_seeded b' = true /\
      bf_rows b' = bf_rows b /\ bf_cols b' = bf_cols b /\ spreads True False b b' vis c.
  Proof.
    intros b vis c I V S. unfold bf_report. rewrite S.
    destruct (drain_ok (bf_queue b) (bf_state b) (si_ndq b vis I)) as (st & E & L & Q1 & Q2); [intros i; apply (si_que b vis I)|].
    rewrite E. cbn [rbind].
    destruct (spread_ok (BF st (bf_rows b) (bf_cols b) [] (bf_nvis b) true) vis c) as (b' & E' & I' & A1 & A2 & A3 & A4 & A5 & A6); [|exact V|].
    { split; cbn [bf_state bf_queue bf_nvis].
      - rewrite L. apply (si_len b vis I).
      - intros i. destruct (in_dec Nat.eq_dec i (bf_queue b)) as [K|K].
        + rewrite (Q1 i K). split; [discriminate|]. intros W. exfalso. exact (sinv_disj b vis I i W K).
        + rewrite (Q2 i K). apply (si_vis b vis I).
      - intros i. destruct (in_dec Nat.eq_dec i (bf_queue b)) as [K|K].
        + rewrite (Q1 i K). split; [discriminate|intros []].
        + rewrite (Q2 i K). rewrite (si_que b vis I). split; [intros W; contradiction|intros []].
      - constructor.
      - apply (si_ndv b vis I).
      - apply (si_cnt b vis I). }
    exists b'. cbn [bf_rows bf_cols bf_seeded bf_queue] in *. split; [exact E'|]. split; [exact I'|]. split; [exact A3|].
    split; [exact A1|]. split; [exact A2|]. split; [intros []|]. split.
    - intros i Hi. destruct (A5 i Hi) as [[]|K]; auto.
    - intros _. exact A6.
  Qed.

  Variable v : nat -> geopos.
  Local Notation inner := (fun i => v i = Interior).

  Lemma vis_bound : forall b vis, sinv b vis -> length vis <= n.
  Proof.
    intros b vis I. rewrite <- (seq_length n 0). apply NoDup_incl_length; [apply (si_ndv b vis I)|].
    intros i Hi. apply in_seq. pose proof (sinv_lt b vis I i (or_introl Hi)). lia.
  Qed.

  (** after the seed: exactly the cells reachable from it are visited *)
  Lemma phase_seeded : forall fuel b vis pre s, sinv b vis -> bf_seeded b = true -> n <= fuel + length vis ->
    In s vis -> (forall x, In x pre -> v x = Exterior) ->
    (forall x, In x vis -> ~ In x pre -> v x = Interior -> forall y, y < n -> touching nc x y -> In y vis \/ In y (bf_queue b)) ->
    (forall x, In x vis \/ In x (bf_queue b) -> ~ In x pre -> reach nr nc inner s x) ->
    exists l b', traverse fuel v g b = Ok (l, b') /\ sinv b' (vis ++ l) /\ bf_queue b' = [] /\ bf_seeded b' = true /\
      (forall x, reach nr nc inner s x -> In x (vis ++ l)) /\
      (forall x, In x (vis ++ l) -> ~ In x pre -> reach nr nc inner s x).
  Proof.
    induction fuel as [|fuel IH]; intros b vis pre s I Sd Fu Hs Hp Cl Re.
    - destruct (bf_queue b) as [|c q] eqn:Q.
      + exists [], b. cbn [traverse]. unfold bf_pop. rewrite Q. cbn [rbind]. rewrite app_nil_r. split; [reflexivity|].
        split; [exact I|]. split; [reflexivity|]. split; [exact Sd|]. split; [|intros x K; apply Re; auto].
        intros x R. induction R as [|x y R IHR O L Tc]; [exact Hs|].
        assert (Np : ~ In x pre) by (intros K; apply Hp in K; congruence). destruct (Cl x IHR Np O y L Tc) as [K|[]]. exact K.
      + exfalso. pose proof (pop_ok b vis c q I Q) as (b1 & _ & I1 & _). pose proof (vis_bound _ _ I1) as VB.
        rewrite app_length in VB. simpl in VB. lia.
    - destruct (bf_queue b) as [|c q] eqn:Q.
      + exists [], b. cbn [traverse]. unfold bf_pop. rewrite Q. cbn [rbind]. rewrite app_nil_r. split; [reflexivity|].
        split; [exact I|]. split; [reflexivity|]. split; [exact Sd|]. split; [|intros x K; apply Re; auto].
        intros x R. induction R as [|x y R IHR O L Tc]; [exact Hs|].
        assert (Np : ~ In x pre) by (intros K; apply Hp in K; congruence). destruct (Cl x IHR Np O y L Tc) as [K|[]]. exact K.
      + destruct (pop_ok b vis c q I Q) as (b1 & E1 & I1 & Q1 & R1 & C1 & S1).
        assert (Vc : In c (vis ++ [c])) by (rewrite in_app_iff; simpl; auto).
        assert (Lc : c < n) by (apply (sinv_lt _ _ I1); auto).
        destruct (report_seeded b1 (vis ++ [c]) c (v c) I1 Vc) as (b2 & E2 & I2 & S2 & R2 & C2 & P1 & P2 & P3); [rewrite S1; exact Sd|].
        destruct (IH b2 (vis ++ [c]) pre s I2 S2) as (l & b' & E3 & I3 & Q3 & S3 & D1 & D2).
        { rewrite app_length. simpl. lia. }
        { rewrite in_app_iff. auto. }
        { exact Hp. }
        { intros x Hx Np Ix y Ly Ty. rewrite in_app_iff in Hx. destruct Hx as [Hx|[<-|[]]].
          - destruct (Cl x Hx Np Ix y Ly Ty) as [K|K]; [left; rewrite in_app_iff; auto|].
            simpl in K. destruct K as [<-|K]; [left; exact Vc|]. right. apply P1; [exact Logic.I|]. rewrite Q1. exact K.
          - apply P3; assumption. }
        { intros x Hx Np. rewrite in_app_iff in Hx. destruct Hx as [[Hx|[<-|[]]]|Hx].
          - apply Re; auto.
          - apply Re; [right; left; reflexivity|exact Np].
          - apply P2 in Hx. destruct Hx as [[_ Hx]|(O & L & Tc)].
            + apply Re; [|exact Np]. right. right. rewrite <- Q1. exact Hx.
            + destruct (in_dec Nat.eq_dec c pre) as [K|K]; [apply Hp in K; congruence|].
              apply reach_step with c; auto. apply Re; [right; left; reflexivity|exact K]. }
        exists (c :: l), b'. cbn [traverse]. rewrite E1. cbn [rbind]. rewrite E2. cbn [rbind]. rewrite E3. cbn [rbind].
        replace (vis ++ c :: l) with ((vis ++ [c]) ++ l) by (rewrite <- app_assoc; reflexivity). auto 12.
  Qed.

  (** before the seed: cells are visited from the middle of the box through cells of the
      box until one is Interior *)
  Lemma phase_search : forall fuel b vis m, sinv b vis -> bf_seeded b = false -> n <= fuel + length vis ->
    (forall x, In x vis -> v x = Exterior) -> (In m vis \/ In m (bf_queue b)) ->
    let box := in_box nc (bf_rows b) (bf_cols b) in
    (forall x, In x vis -> box x -> forall y, y < n -> touching nc x y -> In y vis \/ In y (bf_queue b)) ->
    (forall x, In x vis \/ In x (bf_queue b) -> reach nr nc box m x) ->
    exists l b', traverse fuel v g b = Ok (l, b') /\ sinv b' (vis ++ l) /\ bf_queue b' = [] /\
      ((bf_seeded b' = false /\ (forall x, In x (vis ++ l) -> v x = Exterior) /\
        (forall x, In x (vis ++ l) <-> reach nr nc box m x)) \/
       (exists pre s post, bf_seeded b' = true /\ vis ++ l = pre ++ s :: post /\ (forall x, In x pre -> v x = Exterior) /\ v s = Interior /\
         reach nr nc box m s /\ (forall x, In x pre -> reach nr nc box m x) /\
         (forall x, In x (s :: post) <-> reach nr nc inner s x /\ ~ In x pre))).
  Proof.
    induction fuel as [|fuel IH]; intros b vis m I Sd Fu Hv Hm box Cl Re.
    - destruct (bf_queue b) as [|c q] eqn:Q.
      + exists [], b. cbn [traverse]. unfold bf_pop. rewrite Q. cbn [rbind]. rewrite app_nil_r. split; [reflexivity|].
        split; [exact I|]. split; [reflexivity|]. left. split; [exact Sd|]. split; [exact Hv|]. intros x. split; [intros K; apply Re; auto|].
        intros R. induction R as [|x y R IHR O L Tc]; [destruct Hm as [K|[]]; exact K|].
        destruct (Cl x IHR O y L Tc) as [K|[]]. exact K.
      + exfalso. pose proof (pop_ok b vis c q I Q) as (b1 & _ & I1 & _). pose proof (vis_bound _ _ I1) as VB.
        rewrite app_length in VB. simpl in VB. lia.
    - destruct (bf_queue b) as [|c q] eqn:Q.
      + exists [], b. cbn [traverse]. unfold bf_pop. rewrite Q. cbn [rbind]. rewrite app_nil_r. split; [reflexivity|].
        split; [exact I|]. split; [reflexivity|]. left. split; [exact Sd|]. split; [exact Hv|]. intros x. split; [intros K; apply Re; auto|].
        intros R. induction R as [|x y R IHR O L Tc]; [destruct Hm as [K|[]]; exact K|].
        destruct (Cl x IHR O y L Tc) as [K|[]]. exact K.
      + destruct (pop_ok b vis c q I Q) as (b1 & E1 & I1 & Q1 & R1 & C1 & S1).
        assert (Vc : In c (vis ++ [c])) by (rewrite in_app_iff; simpl; auto).
        assert (Lc : c < n) by (apply (sinv_lt _ _ I1); auto).
        assert (Nc : ~ In c vis) by (intros K; apply (sinv_disj b vis I c K); rewrite Q; left; reflexivity).
        cbn [traverse]. rewrite E1. cbn [rbind].
        destruct (v c) eqn:Ev.
        * destruct (report_outside b1 (vis ++ [c]) c I1 Vc) as (b2 & E2 & I2 & S2 & R2 & C2 & P1 & P2 & P3); [rewrite S1; exact Sd|].
          rewrite R1, C1 in *.
          destruct (IH b2 (vis ++ [c]) m I2 S2) as (l & b' & E3 & I3 & Q3 & D).
          { rewrite app_length. simpl. lia. }
          { intros x Hx. rewrite in_app_iff in Hx. destruct Hx as [Hx|[<-|[]]]; auto. }
          { destruct Hm as [K|[<-|K]]; [left; rewrite in_app_iff; auto|left; exact Vc|]. right. apply P1; [exact Logic.I|]. rewrite Q1. exact K. }
          { rewrite R2, C2. intros x Hx Bx y Ly Ty. rewrite in_app_iff in Hx. destruct Hx as [Hx|[<-|[]]].
            - destruct (Cl x Hx Bx y Ly Ty) as [K|[<-|K]]; [left; rewrite in_app_iff; auto|left; exact Vc|].
              right. apply P1; [exact Logic.I|]. rewrite Q1. exact K.
            - apply P3; assumption. }
          { rewrite R2, C2. intros x Hx. rewrite in_app_iff in Hx. destruct Hx as [[Hx|[<-|[]]]|Hx].
            - apply Re; auto.
            - apply Re. right. left. reflexivity.
            - apply P2 in Hx. destruct Hx as [[_ Hx]|(O & L & Tc)]; [apply Re; right; right; rewrite <- Q1; exact Hx|].
              apply reach_step with c; auto. apply Re. right. left. reflexivity. }
          rewrite R2, C2 in D. exists (c :: l), b'. rewrite E2. cbn [rbind]. rewrite E3. cbn [rbind].
          replace (vis ++ c :: l) with ((vis ++ [c]) ++ l) by (rewrite <- app_assoc; reflexivity). auto 12.
        * destruct (report_seed b1 (vis ++ [c]) c I1 Vc) as (b2 & E2 & I2 & S2 & R2 & C2 & P1 & P2 & P3); [rewrite S1; exact Sd|].
          destruct (phase_seeded fuel b2 (vis ++ [c]) vis c I2 S2) as (l & b' & E3 & I3 & Q3 & S3 & D1 & D2).
          { rewrite app_length. simpl. lia. }
          { exact Vc. }
          { exact Hv. }
          { intros x Hx Np Ix y Ly Ty. rewrite in_app_iff in Hx. destruct Hx as [Hx|[<-|[]]]; [contradiction|]. apply P3; auto. }
          { intros x Hx Np. rewrite in_app_iff in Hx. destruct Hx as [[Hx|[<-|[]]]|Hx]; [contradiction|constructor|].
            apply P2 in Hx. destruct Hx as [[[] _]|(_ & L & Tc)]. apply reach_step with c; auto. constructor. }
          exists (c :: l), b'. rewrite E2. cbn [rbind]. rewrite E3. cbn [rbind]. split; [reflexivity|].
          rewrite <- app_assoc in I3, D1, D2. cbn [app] in I3, D1, D2. split; [exact I3|]. split; [exact Q3|]. right.
          exists vis, c, l. split; [exact S3|]. split; [reflexivity|]. split; [exact Hv|]. split; [exact Ev|].
          split; [apply Re; right; left; reflexivity|]. split; [intros x Hx; apply Re; auto|].
          pose proof (si_ndv _ _ I3) as ND. intros x. split.
          -- intros Hx. assert (Np : ~ In x vis).
             { clear -ND Hx. induction vis as [|a vs IHv]; [intros []|]. simpl in ND. inversion ND; subst.
               intros [<-|K]; [apply H1; rewrite in_app_iff; auto|]. apply (IHv H2 K). }
             split; [|exact Np]. apply D2; [rewrite in_app_iff; auto|exact Np].
          -- intros [Rx Np]. apply D1 in Rx. rewrite in_app_iff in Rx. tauto.
  Qed.

  Lemma line_walk : forall (P : nat -> Prop) lo hi t0, (forall t, lo <= t < hi -> (P t <-> P (S t))) ->
    lo <= t0 <= hi -> P t0 -> forall t, lo <= t <= hi -> P t.
  Proof.
    intros P lo hi t0 St H0 P0.
    assert (Up : forall k t, t = t0 + k -> t <= hi -> P t).
    { induction k as [|k IH]; intros t E L; [replace t with t0 by lia; exact P0|].
      replace t with (S (t0 + k)) by lia. apply (proj1 (St (t0 + k) ltac:(lia))). apply IH; lia. }
    assert (Dn : forall k t, t + k = t0 -> lo <= t -> P t).
    { induction k as [|k IH]; intros t E L; [replace t with t0 by lia; exact P0|].
      apply (proj2 (St t ltac:(lia))). apply IH; lia. }
    intros t Ht. destruct (le_lt_dec t0 t) as [L|L]; [apply (Up (t - t0)); lia|apply (Dn (t0 - t)); lia].
  Qed.

  Lemma idx_div_mod : forall r c, c < nc -> Nat.div (r * nc + c) nc = r /\ Nat.modulo (r * nc + c) nc = c.
  Proof. intros r c H. apply dm_unique; lia. Qed.

  Lemma box_connected : forall rows cols mr mc r c,
    snd rows < nr -> snd cols < nc -> fst rows <= mr <= snd rows -> fst cols <= mc <= snd cols ->
    fst rows <= r <= snd rows -> fst cols <= c <= snd cols ->
    reach nr nc (in_box nc rows cols) (mr * nc + mc) (r * nc + c).
  Proof.
    intros rows cols mr mc r c Lr Lc Hmr Hmc Hr Hc.
    assert (Bx : forall r c, fst rows <= r <= snd rows -> fst cols <= c <= snd cols ->
              in_box nc rows cols (r * nc + c) /\ r * nc + c < n).
    { intros r1 c1 A B. unfold in_box. destruct (idx_div_mod r1 c1) as [-> ->]; [lia|]. split; [auto|nia]. }
    assert (Tc : forall r1 c1 r2 c2, c1 < nc -> c2 < nc -> r1 <= S r2 -> r2 <= S r1 -> c1 <= S c2 -> c2 <= S c1 ->
              touching nc (r1 * nc + c1) (r2 * nc + c2)).
    { intros r1 c1 r2 c2 A B. unfold touching. destruct (idx_div_mod r1 c1 A) as [-> ->]. destruct (idx_div_mod r2 c2 B) as [-> ->]. lia. }
    pose (P := fun t => reach nr nc (in_box nc rows cols) (mr * nc + mc) (t * nc + mc)).
    assert (A : forall t, fst rows <= t <= snd rows -> P t).
    { apply (line_walk P _ _ mr); [|exact Hmr|apply reach_here]. intros t Ht. unfold P. split; intros K.
      - apply reach_step with (t * nc + mc); [exact K|apply Bx; lia|apply Bx; lia|apply Tc; lia].
      - apply reach_step with (S t * nc + mc); [exact K|apply Bx; lia|apply Bx; lia|apply Tc; lia]. }
    pose (Q := fun t => reach nr nc (in_box nc rows cols) (mr * nc + mc) (r * nc + t)).
    apply (line_walk Q (fst cols) (snd cols) mc); [|exact Hmc|apply A; exact Hr|exact Hc]. intros t Ht. unfold Q. split; intros K.
    - apply reach_step with (r * nc + t); [exact K|apply Bx; lia|apply Bx; lia|apply Tc; lia].
    - apply reach_step with (r * nc + S t); [exact K|apply Bx; lia|apply Bx; lia|apply Tc; lia].
  Qed.

  Lemma box_in : forall rows cols i, snd rows < nr -> snd cols < nc -> in_box nc rows cols i ->
    i < n /\ i = Nat.div i nc * nc + Nat.modulo i nc.
  Proof.
    intros rows cols i Lr Lc [A B]. assert (C0 : 0 < nc) by lia. pose proof (Nat.div_mod i nc ltac:(lia)) as E. split; nia.
  Qed.

  (** the whole fill *)
  Theorem fill_correct : forall fuel rows cols, n <= fuel -> fst rows <= snd rows < nr -> fst cols <= snd cols < nc ->
    exists b order b', fill_start g rows cols = Ok b /\ traverse fuel v g b = Ok (order, b') /\
      NoDup order /\ (forall i, In i order -> i < n) /\ bf_nvis b' = length order /\ bf_queue b' = [] /\
      ((bf_seeded b' = false /\ (forall i, In i order -> v i = Exterior) /\
        (forall i, In i order <-> exists a, in_box nc rows cols a /\ i < n /\ touching nc a i)) \/
       (exists pre s post, bf_seeded b' = true /\ order = pre ++ s :: post /\ (forall i, In i pre -> v i = Exterior) /\ v s = Interior /\
         (exists a, in_box nc rows cols a /\ touching nc a s) /\
         (forall i, In i (s :: post) <-> reach nr nc inner s i /\ ~ In i pre))).
  Proof.
    intros fuel [r0 r1] [c0 c1] Hfu Hr Hc. cbn [fst snd] in Hr, Hc. unfold fill_start, bf_init_queue. cbn [bf_rows bf_cols].
    rewrite (proj2 (Nat.leb_le r0 r1)), (proj2 (Nat.leb_le c0 c1)) by lia. cbn [andb].
    pose proof (Nat.div_le_upper_bound (r1 - r0) 2 (r1 - r0) ltac:(lia) ltac:(lia)) as Dr.
    pose proof (Nat.div_le_upper_bound (c1 - c0) 2 (c1 - c0) ltac:(lia) ltac:(lia)) as Dc.
    set (mr := r0 + Nat.div (r1 - r0) 2) in *. set (mc := c0 + Nat.div (c1 - c0) 2) in *.
    assert (Hmr : r0 <= mr <= r1) by (unfold mr; lia). assert (Hmc : c0 <= mc <= c1) by (unfold mc; lia).
    clearbody mr mc. clear Dr Dc.
    unfold to_index, calculate_index. rewrite (proj2 (Nat.ltb_lt mr nr)), (proj2 (Nat.ltb_lt mc nc)) by lia. cbn [andb expect rbind bf_state].
    set (m := mr * nc + mc). assert (Lm : m < n) by (unfold m; nia).
    assert (Nm : nth_error (repeat NotQueued n) m = Some NotQueued).
    { apply nth_error_repeat. exact Lm. }
    rewrite (update_ok cs_queue _ m _ _ Nm eq_refl). cbn [rbind bf_queue bf_nvis bf_seeded app].
    set (b := BF (vset m Queued (repeat NotQueued n)) (r0, r1) (c0, c1) [m] 0 false).
    assert (Rep : forall i s, nth_error (repeat NotQueued n) i = Some s -> s = NotQueued).
    { intros i s K. apply nth_error_In in K. apply repeat_spec in K. exact K. }
    assert (I : sinv b []).
    { split; cbn [b bf_state bf_queue bf_nvis].
      - rewrite vset_length, repeat_length. reflexivity.
      - intros i. destruct (Nat.eq_dec m i) as [<-|Ne].
        + rewrite vset_eq by (rewrite repeat_length; exact Lm). split; [discriminate|intros []].
        + rewrite vset_neq by exact Ne. split; [intros K; apply Rep in K; discriminate|intros []].
      - intros i. destruct (Nat.eq_dec m i) as [<-|Ne].
        + rewrite vset_eq by (rewrite repeat_length; exact Lm). simpl. tauto.
        + rewrite vset_neq by exact Ne. simpl. split; [intros K; apply Rep in K; discriminate|intros [K|[]]; contradiction].
      - repeat constructor. intros [].
      - constructor.
      - reflexivity. }
    destruct (phase_search fuel b [] m I eq_refl) as (l & b' & E & I' & Q' & D).
    { simpl. lia. }
    { intros x []. }
    { right. left. reflexivity. }
    { intros x []. }
    { intros x [[]|[<-|[]]]. constructor. }
    cbn [app b bf_rows bf_cols] in I', D.
    assert (Rc : forall x, reach nr nc (in_box nc (r0, r1) (c0, c1)) m x <-> exists a, in_box nc (r0, r1) (c0, c1) a /\ x < n /\ touching nc a x).
    { intros x. split.
      - intros K. assert (Bm : in_box nc (r0, r1) (c0, c1) m).
        { unfold in_box, m. destruct (idx_div_mod mr mc) as [-> ->]; [lia|]. cbn [fst snd]. lia. }
        destruct K as [|y x K O L Tc].
        + exists m. split; [exact Bm|]. split; [exact Lm|]. unfold touching. lia.
        + exists y. auto.
      - intros (a & Ba & La & Ta). apply reach_step with a; auto. destruct (box_in (r0, r1) (c0, c1) a) as [_ ->]; [simpl; lia|simpl; lia|exact Ba|].
        destruct Ba as [B1 B2]. apply box_connected; cbn [fst snd] in *; lia. }
    exists b, l, b'. split; [reflexivity|]. split; [exact E|]. split; [apply (si_ndv _ _ I')|].
    split; [intros i Hi; apply (sinv_lt _ _ I'); auto|]. split; [apply (si_cnt _ _ I')|]. split; [exact Q'|].
    destruct D as [(Sd & D1 & D2)|(pre & s & post & Sd & D1 & D2 & D3 & D4 & D5 & D6)].
    - left. split; [exact Sd|]. split; [exact D1|]. intros i. rewrite D2. apply Rc.
    - right. exists pre, s, post. split; [exact Sd|]. split; [exact D1|]. split; [exact D2|]. split; [exact D3|]. split; [|exact D6].
      apply Rc in D4. destruct D4 as (a & A1 & _ & A2). exists a. auto.
  Qed.

  (** so an Interior cell in or next to the box is always found *)
  Corollary fill_finds : forall fuel rows cols b order b' x a, n <= fuel -> fst rows <= snd rows < nr -> fst cols <= snd cols < nc ->
    fill_start g rows cols = Ok b -> traverse fuel v g b = Ok (order, b') ->
    in_box nc rows cols a -> x < n -> touching nc a x -> v x = Interior ->
    bf_seeded b' = true /\ exists s, In s order /\ v s = Interior.
  Proof.
    intros fuel rows cols b order b' x a Hfu Hr Hc E1 E2 Ba Lx Ta Vx.
    destruct (fill_correct fuel rows cols Hfu Hr Hc) as (b0 & o0 & b0' & F1 & F2 & _ & _ & _ & _ & D).
    rewrite E1 in F1. injection F1 as <-. rewrite E2 in F2. injection F2 as <- <-.
    destruct D as [(Sd & D1 & D2)|(pre & s & post & Sd & D1 & _ & D3 & _)].
    - exfalso. assert (K : In x order) by (apply D2; exists a; auto). apply D1 in K. congruence.
    - split; [exact Sd|]. exists s. split; [rewrite D1, in_app_iff; simpl; auto|exact D3].
  Qed.
  Lemma fill_first : forall fuel rows cols b order b', fill_start g rows cols = Ok b -> traverse fuel v g b = Ok (order, b') ->
    hd_error order = Some ((fst rows + Nat.div (snd rows - fst rows) 2) * nc + (fst cols + Nat.div (snd cols - fst cols) 2)).
  Proof.
    intros fuel [r0 r1] [c0 c1] b order b' E1 E2. cbn [fst snd]. unfold fill_start, bf_init_queue in E1. cbn [bf_rows bf_cols] in E1.
    destruct (Nat.leb r0 r1 && Nat.leb c0 c1); [|discriminate]. unfold to_index, calculate_index in E1.
    destruct (Nat.ltb _ _ && Nat.ltb _ _); [|discriminate]. cbn [expect rbind] in E1.
    apply rbind_ok in E1 as (st & _ & E1). injection E1 as <-. cbn [bf_queue bf_nvis bf_seeded app] in E2.
    destruct fuel; cbn [traverse] in E2; unfold bf_pop at 1 in E2; cbn [bf_queue bf_state bf_rows bf_cols bf_nvis bf_seeded] in E2;
      destruct (cs_update cs_visit st _) as [st'|]; try discriminate; cbn [rbind] in E2.
    apply rbind_ok in E2 as (b2 & _ & E2). apply rbind_ok in E2 as ([l b3] & _ & E2). injection E2 as <- <-. reflexivity.
  Qed.
End Fill.
