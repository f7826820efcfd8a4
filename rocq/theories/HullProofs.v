(** The convex hull routine. *)
From Coq Require Import Reals List Bool Arith Lra Lia Psatz Sorted Permutation.
From Verif Require Import Base Num GeoModel TransfModel PolyModel GeoSpec ShapeSpec BaseProofs ParityProofs GeoPrimProofs PipProofs.
Import ListNotations.
Local Open Scope R_scope.
#[local] Existing Instance RNum.

(** *** stable sorting *)
Definition lex {A} (k : A -> R) (a b : A) : Prop := k a <= k b.
Lemma insert_perm : forall {A} (k : A -> R) x l, Permutation (insert_by k x l) (x :: l).
Proof.
  intros A k x l. induction l as [|y l IH]; simpl; [reflexivity|].
  destruct (Rltb (k x) (k y)); [reflexivity|]. rewrite IH. apply perm_swap.
Qed.
Lemma insert_sorted : forall {A} (k : A -> R) x l, StronglySorted (lex k) l -> StronglySorted (lex k) (insert_by k x l).
Proof.
  intros A k x l S. induction S as [|y l S IH H]; simpl; [constructor; constructor|].
  rdestr (k x) (k y).
  - constructor; [constructor; assumption|]. constructor; [unfold lex; lra|].
    eapply Forall_impl; [|exact H]. unfold lex. intros; lra.
  - constructor; [exact IH|]. rewrite insert_perm. constructor; [exact H0|exact H].
Qed.
Lemma insert_class : forall {A} (k : A -> R) v x l, StronglySorted (lex k) l ->
  filter (fun p => Reqb (k p) v) (insert_by k x l) = filter (fun p => Reqb (k p) v) l ++ (if Reqb (k x) v then [x] else []).
Proof.
  intros A k v x l S. induction S as [|y l S IH H]; simpl.
  - destruct (Reqb (k x) v); reflexivity.
  - rdestr (k x) (k y).
    + cbn [filter]. destruct (Reqb (k x) v) eqn:E.
      * apply Reqb_spec in E. destruct (Reqb (k y) v) eqn:E'; [apply Reqb_spec in E'; lra|].
        assert (Z : filter (fun p => Reqb (k p) v) l = []).
        { clear -H H0 E. induction H as [|z l Hz H IH]; [reflexivity|]. simpl.
          destruct (Reqb (k z) v) eqn:Ez; [apply Reqb_spec in Ez; unfold lex in Hz; lra|exact IH]. }
        rewrite Z. reflexivity.
      * rewrite app_nil_r. reflexivity.
    + cbn [filter]. rewrite IH. destruct (Reqb (k y) v); reflexivity.
Qed.
Lemma sort_ok : forall {A} (k : A -> R) l, StronglySorted (lex k) (sort_by k l) /\ Permutation (sort_by k l) l /\
  forall v, filter (fun p => Reqb (k p) v) (sort_by k l) = filter (fun p => Reqb (k p) v) l.
Proof.
  intros A k l. unfold sort_by.
  assert (G : forall l acc, StronglySorted (lex k) acc ->
    StronglySorted (lex k) (fold_left (fun acc x => insert_by k x acc) l acc) /\
    Permutation (fold_left (fun acc x => insert_by k x acc) l acc) (acc ++ l) /\
    forall v, filter (fun p => Reqb (k p) v) (fold_left (fun acc x => insert_by k x acc) l acc) = filter (fun p => Reqb (k p) v) (acc ++ l)).
  { clear l. intros l. induction l as [|x l IH]; intros acc S; cbn [fold_left].
    - rewrite app_nil_r. split; [exact S|]. split; [reflexivity|reflexivity].
    - destruct (IH (insert_by k x acc) (insert_sorted k x acc S)) as (A1 & A2 & A3).
      split; [exact A1|]. split.
      + rewrite A2, (insert_perm k x acc). apply Permutation_middle.
      + intros v. rewrite A3, !filter_app, (insert_class k v x acc S), <- app_assoc. f_equal. cbn [filter].
        destruct (Reqb (k x) v); reflexivity. }
  apply (G l []). constructor.
Qed.

(** *** one chain *)
Lemma grow_cons : forall (a b : rpoint) r np,
  grow_hull (b :: a :: r) np = if Rleb (cross a b np) 0 then grow_hull (a :: r) np else np :: b :: a :: r.
Proof. reflexivity. Qed.
Section Chain.
  Variables (x0 : R) (down : bool).
  Fixpoint okc (h : list rpoint) : Prop :=
    match h with
    | [] => True
    | b :: r => match r with
                | [] => px b = x0
                | a :: _ => px a <= px b /\ (px a = px b -> py a <= py b \/ (down = true /\ px b = x0)) /\ okc r
                end
    end.
  (** the new point relative to the chain *)
  Definition fits (h : list rpoint) (np : rpoint) : Prop :=
    x0 <= px np /\ (h = [] -> px np = x0) /\ (forall v, In v h -> x0 <= px v <= px np) /\
    (px np = x0 -> forall v, In v h -> if down then py np <= py v else py v <= py np).
  Lemma okc_low : forall h v, okc h -> In v h -> x0 <= px v.
  Proof.
    induction h as [|b [|a r] IH]; intros v O I; [destruct I|destruct I as [<-|[]]; simpl in O; lra|].
    destruct O as (A & _ & B). destruct I as [<-|I]; [|exact (IH v B I)].
    pose proof (IH a B (or_introl eq_refl)). lra.
  Qed.
  Lemma popped : forall u a b np, py u <= 0 -> px a <= px b <= px np -> (px a = px b -> px b = px np -> py a <= py b \/ py np <= py b) ->
    cross a b np <= 0 -> forall c, dotp u a <= c -> dotp u np <= c -> dotp u b <= c.
  Proof.
    intros u [ax ay] [bx by'] [nx ny] U X T C c A B. unfold dotp, cross in *; cbn [px py fsub fmul RNum RNumT] in *.
    set (ux := px u) in *. set (uy := py u) in *. clearbody ux uy.
    destruct (Rle_lt_or_eq_dec ax nx) as [L|L]; [lra| |].
    - set (w := nx - ax) in *. assert (0 < w) by (unfold w; lra).
      apply Rmult_le_reg_l with w; [assumption|].
      assert (K : w * (ux * bx + uy * by') = (nx - bx) * (ux * ax + uy * ay) + (bx - ax) * (ux * nx + uy * ny) + - uy * ((bx - ax) * (ny - ay) - (by' - ay) * w)).
      { unfold w. ring. }
      rewrite K. assert ((nx - bx) * (ux * ax + uy * ay) <= (nx - bx) * c) by (apply Rmult_le_compat_l; lra).
      assert ((bx - ax) * (ux * nx + uy * ny) <= (bx - ax) * c) by (apply Rmult_le_compat_l; lra).
      assert (- uy * ((bx - ax) * (ny - ay) - (by' - ay) * w) <= 0) by nra.
      assert (w * c = (nx - bx) * c + (bx - ax) * c) by (unfold w; ring). lra.
    - assert (bx = ax) by lra. subst. destruct (T ltac:(lra) ltac:(lra)); nra.
  Qed.
  Lemma grow_ok : forall h np, okc h -> fits h np ->
    okc (grow_hull h np) /\
    (forall u c, py u <= 0 -> (forall v, In v (grow_hull h np) -> dotp u v <= c) -> forall v, In v h -> dotp u v <= c) /\
    (exists r, grow_hull h np = np :: r /\ (forall v, In v r -> In v h)).
  Proof.
    intros h np. induction h as [|b r IH]; intros O (X0 & E & X & M).
    - cbn [grow_hull]. split; [exact (E eq_refl)|]. split; [intros u c _ _ v []|exists []; split; [reflexivity|intros v []]].
    - destruct r as [|a r].
      + cbn [grow_hull]. cbn [okc] in O. split; [|split].
        * cbn [okc]. destruct (X b (or_introl eq_refl)). split; [lra|]. split; [|exact O].
          intros T. assert (N : px np = x0) by lra. specialize (M N b (or_introl eq_refl)). destruct down; [right; split; [reflexivity|exact N]|left; exact M].
        * intros u c U H v I. apply H. right. exact I.
        * exists [b]. split; [reflexivity|auto].
      + cbn [okc] in O. destruct O as (Xab & Tab & Or).
        destruct (X b (or_introl eq_refl)) as (B0 & B1).
        assert (F : fits (a :: r) np).
        { split; [exact X0|]. split; [discriminate|]. split.
          - intros v I. apply X. right. exact I.
          - intros N v I. apply M; [exact N|right; exact I]. }
        rewrite grow_cons. destruct (Rleb (cross a b np) 0) eqn:C.
        * apply Rleb_spec in C. destruct (IH Or F) as (A1 & A2 & (q & A3 & A4)).
          split; [exact A1|]. split.
          -- intros u c U H v [<-|I]; [|exact (A2 u c U H v I)].
             apply (popped u a b np U); [lra| |exact C| |].
             ++ intros T T'. destruct (Tab T) as [K|(K & K')]; [left; exact K|right].
                rewrite K in M. apply (M ltac:(lra)). left. reflexivity.
             ++ apply (A2 u c U H a). left. reflexivity.
             ++ apply H. rewrite A3. left. reflexivity.
          -- exists q. split; [exact A3|]. intros v I. right. exact (A4 v I).
        * apply Rleb_nspec in C. split; [|split].
          -- cbn [okc]. split; [lra|]. split; [|split; [exact Xab|split; [exact Tab|exact Or]]].
             intros T. destruct (Rle_or_lt (py b) (py np)) as [L|L]; [left; exact L|].
             destruct (Req_dec (px b) x0) as [Z|Z].
             ++ assert (N : px np = x0) by lra. specialize (M N b (or_introl eq_refl)). destruct down; [right; split; [reflexivity|exact N]|lra].
             ++ exfalso. unfold cross in C; cbn [fsub fmul RNum RNumT] in C. rewrite <- T in C. nra.
          -- intros u c U H v I. apply H. right. exact I.
          -- exists (b :: a :: r). split; [reflexivity|auto].
  Qed.
End Chain.

Lemma half_snoc : forall (l : list rpoint) p, half_hull (l ++ [p]) = grow_hull (half_hull l) p.
Proof. intros. unfold half_hull. rewrite fold_left_app. reflexivity. Qed.
Lemma ss_app : forall {A} (P : A -> A -> Prop) l m, StronglySorted P (l ++ m) ->
  StronglySorted P l /\ StronglySorted P m /\ forall x y, In x l -> In y m -> P x y.
Proof.
  intros A P l m. induction l as [|a l IH]; intros S; simpl in S.
  - split; [constructor|]. split; [exact S|intros x y []].
  - inversion S as [|a' l' S' H]; subst. destruct (IH S') as (A1 & A2 & A3). apply Forall_app in H. destruct H as (H1 & H2).
    split; [constructor; assumption|]. split; [exact A2|].
    intros x y [<-|I] J; [rewrite Forall_forall in H2; apply H2, J|exact (A3 x y I J)].
Qed.
(** downward directions are maximised on the chain *)
Lemma half_ok : forall x0 down l, StronglySorted (lex (@px R)) l -> (match l with [] => True | p :: _ => px p = x0 end) ->
  StronglySorted (fun p q => if down : bool then py q <= py p else py p <= py q) (filter (fun p => Reqb (px p) x0) l) ->
  okc x0 down (half_hull l) /\ (forall v, In v (half_hull l) -> In v l) /\
  (forall u c, py u <= 0 -> (forall v, In v (half_hull l) -> dotp u v <= c) -> forall v, In v l -> dotp u v <= c).
Proof.
  intros x0 down l. induction l as [|np l IH] using rev_ind; intros S H0 M.
  - cbn. split; [exact I|]. split; [auto|intros u c _ _ v []].
  - rewrite half_snoc. destruct (ss_app _ _ _ S) as (S1 & _ & S2).
    rewrite filter_app in M. destruct (ss_app _ _ _ M) as (M1 & _ & M2).
    assert (H0' : match l with [] => True | p :: _ => px p = x0 end) by (destruct l; [exact I|exact H0]).
    destruct (IH S1 H0' M1) as (A1 & A2 & A3).
    assert (Lo : x0 <= px np).
    { destruct l as [|p l]; [simpl in H0; lra|]. specialize (S2 p np (or_introl eq_refl) (or_introl eq_refl)). unfold lex in S2. lra. }
    assert (F : fits x0 down (half_hull l) np).
    { split; [exact Lo|]. split; [|split].
      - intros E. destruct l as [|p l]; [exact H0|]. exfalso.
        assert (G : forall (l : list rpoint) p, half_hull (l ++ [p]) <> []).
        { intros m q. rewrite half_snoc. generalize (half_hull m). intros h. induction h as [|b [|a r] IHh]; [discriminate|discriminate|].
          rewrite grow_cons. destruct (Rleb (cross a b q) 0); [exact IHh|discriminate]. }
        destruct (@exists_last _ (p :: l) ltac:(discriminate)) as (m & q & Em). rewrite Em in E. exact (G _ _ E).
      - intros v I. split; [apply (okc_low x0 down (half_hull l)); assumption|]. apply A2 in I. apply (S2 v np I). left. reflexivity.
      - intros N v I. assert (Iv := A2 v I). assert (Lv : px v = x0).
        { pose proof (okc_low x0 down _ v A1 I). specialize (S2 v np Iv (or_introl eq_refl)). unfold lex in S2. lra. }
        specialize (M2 v np). cbn beta in M2. apply M2.
        + apply filter_In. split; [exact Iv|]. apply Reqb_spec. exact Lv.
        + cbn [filter]. replace (Reqb (px np) x0) with true by (symmetry; apply Reqb_spec; exact N). left. reflexivity. }
    destruct (grow_ok x0 down _ np A1 F) as (B1 & B2 & (r & B3 & B4)).
    split; [exact B1|]. split.
    + intros v I. rewrite B3 in I. apply in_or_app. destruct I as [<-|I]; [right; left; reflexivity|left; apply A2, B4, I].
    + intros u c U H v I. apply in_app_or in I. destruct I as [I|[<-|[]]].
      * apply (A3 u c U); [|exact I]. intros w W. apply (B2 u c U H w W).
      * apply H. rewrite B3. left. reflexivity.
Qed.

(** the ends of a chain *)
Lemma grow_last : forall (h : list rpoint) np d, h <> [] -> last (grow_hull h np) d = last h d.
Proof.
  induction h as [|b [|a r] IH]; intros np d NE; [congruence|reflexivity|].
  rewrite grow_cons. destruct (Rleb (cross a b np) 0).
  - rewrite IH by discriminate. reflexivity.
  - reflexivity.
Qed.
Lemma grow_size : forall (h : list rpoint) np, h <> [] -> (2 <= length (grow_hull h np))%nat.
Proof.
  induction h as [|b [|a r] IH]; intros np NE; [congruence|simpl; lia|].
  rewrite grow_cons. destruct (Rleb (cross a b np) 0); [apply IH; discriminate|simpl; lia].
Qed.
Lemma grow_hd : forall (h : list rpoint) np, exists r, grow_hull h np = np :: r.
Proof.
  induction h as [|b [|a r] IH]; intros np; [eexists; reflexivity|eexists; reflexivity|].
  rewrite grow_cons. destruct (Rleb (cross a b np) 0); [apply IH|eexists; reflexivity].
Qed.
Lemma half_last : forall (l : list rpoint) d, last (half_hull l) d = hd d l.
Proof.
  intros l d. induction l as [|p l IH] using rev_ind; [reflexivity|]. rewrite half_snoc.
  destruct l as [|q l]; [reflexivity|]. cbn [app hd] in *. rewrite grow_last; [exact IH|].
  intros E. destruct (@exists_last _ (q :: l) ltac:(discriminate)) as (m & x & Em). rewrite Em, half_snoc in E.
  destruct (grow_hd (half_hull m) x) as (r & E'). congruence.
Qed.
Lemma half_hd : forall (l : list rpoint) p, exists r, half_hull (l ++ [p]) = p :: r.
Proof. intros l p. rewrite half_snoc. apply grow_hd. Qed.
Lemma half_size : forall (l : list rpoint), (2 <= length l)%nat -> (2 <= length (half_hull l))%nat.
Proof.
  intros l L. destruct (@exists_last _ l) as (m & x & ->); [intros ->; simpl in L; lia|]. rewrite half_snoc. apply grow_size.
  rewrite app_length in L. simpl in L.
  intros E. destruct (@exists_last _ m) as (m' & x' & ->); [intros ->; simpl in L; lia|]. rewrite half_snoc in E.
  destruct (grow_hd (half_hull m') x') as (r & E'). congruence.
Qed.

(** point reflection turns the upper chain into a lower one *)
Definition ngp (p : rpoint) : rpoint := Pt (- px p) (- py p).
Lemma ngp2 : forall p, ngp (ngp p) = p.
Proof. intros [x y]. unfold ngp; cbn [px py]. f_equal; ring. Qed.
Lemma cross_ngp : forall a b c, cross (ngp a) (ngp b) (ngp c) = cross a b c.
Proof. intros a b c. unfold cross, ngp; cbn [px py fsub fmul RNum RNumT]. ring. Qed.
Lemma grow_ngp : forall h np, grow_hull (map ngp h) (ngp np) = map ngp (grow_hull h np).
Proof.
  induction h as [|b [|a r] IH]; intros np; [reflexivity|reflexivity|].
  rewrite grow_cons. cbn [map]. rewrite grow_cons, cross_ngp. destruct (Rleb (cross a b np) 0); [apply IH|reflexivity].
Qed.
Lemma half_ngp : forall l, half_hull (map ngp l) = map ngp (half_hull l).
Proof.
  intros l. induction l as [|p l IH] using rev_ind; [reflexivity|]. rewrite map_app. cbn [map]. rewrite !half_snoc, IH. apply grow_ngp.
Qed.
Lemma ss_rev : forall {A} (P Q : A -> A -> Prop) l, (forall x y, P x y -> Q y x) -> StronglySorted P l -> StronglySorted Q (rev l).
Proof.
  intros A P Q l H S. induction S as [|a l S IH F]; simpl; [constructor|].
  assert (G : forall m, StronglySorted Q m -> Forall (fun y => Q y a) m -> StronglySorted Q (m ++ [a])).
  { intros m Sm Fm. induction Sm as [|b m Sm IHm Fb]; simpl; [constructor; constructor|].
    inversion Fm; subst. constructor; [apply IHm; assumption|]. apply Forall_app. split; [exact Fb|constructor; [assumption|constructor]]. }
  apply G; [exact IH|]. rewrite Forall_forall in *. intros x I. apply in_rev in I. apply H, F, I.
Qed.
Lemma ss_map : forall {A B} (f : A -> B) (P : B -> B -> Prop) (Q : A -> A -> Prop) l, (forall x y, Q x y -> P (f x) (f y)) ->
  StronglySorted Q l -> StronglySorted P (map f l).
Proof.
  intros A B f P Q l H S. induction S as [|a l S IH F]; simpl; constructor; [exact IH|].
  rewrite Forall_forall in *. intros x I. apply in_map_iff in I. destruct I as (y & <- & I). apply H, F, I.
Qed.
Lemma filter_rev : forall {A} (f : A -> bool) l, filter f (rev l) = rev (filter f l).
Proof.
  intros A f l. induction l as [|a l IH]; [reflexivity|]. cbn [rev filter]. rewrite filter_app, IH. cbn [filter].
  destruct (f a); [reflexivity|rewrite app_nil_r; reflexivity].
Qed.
Lemma filter_map_eq : forall l x, filter (fun p => Reqb (px p) (- x)) (map ngp l) = map ngp (filter (fun p => Reqb (px p) x) l).
Proof.
  intros l x. induction l as [|a l IH]; [reflexivity|]. cbn [map filter]. rewrite IH. cbn [ngp px].
  destruct (Reqb (px a) x) eqn:E.
  - apply Reqb_spec in E. replace (Reqb (- px a) (- x)) with true by (symmetry; apply Reqb_spec; lra). reflexivity.
  - apply Reqb_nspec in E. replace (Reqb (- px a) (- x)) with false by (symmetry; apply Reqb_nspec; lra). reflexivity.
Qed.

Theorem hull_ok : forall l, (2 <= length l)%nat -> sides_one_way l ->
  (forall v, In v (convex_hull l) -> In v l) /\ (forall p, In p l -> in_hull (convex_hull l) p).
Proof.
  intros l L W. unfold convex_hull. destruct (sort_ok (@px R) l) as (S & P & C). set (s := sort_by (@px R) l) in *.
  assert (Ls : (2 <= length s)%nat) by (rewrite (Permutation_length P); exact L).
  assert (IN : forall v, In v s <-> In v l) by (intros v; split; apply Permutation_in; [exact P|apply Permutation_sym, P]).
  (* lower chain *)
  assert (LOW : (forall v, In v (half_hull s) -> In v s) /\
    (forall u c, py u <= 0 -> (forall v, In v (half_hull s) -> dotp u v <= c) -> forall v, In v s -> dotp u v <= c)).
  { destruct s as [|a r] eqn:Es; [simpl in Ls; lia|].
    assert (Mn : forall p, In p l -> px a <= px p).
    { intros p I. apply IN in I. destruct I as [<-|I]; [lra|]. inversion S as [|? ? ? F]; subst. rewrite Forall_forall in F. exact (F p I). }
    destruct (W (px a) (or_introl Mn)) as [U|U]; rewrite <- C in U.
    - destruct (half_ok (px a) false (a :: r) S eq_refl U) as (_ & A & B). split; assumption.
    - destruct (half_ok (px a) true (a :: r) S eq_refl U) as (_ & A & B). split; assumption. }
  (* upper chain *)
  assert (UPP : (forall v, In v (half_hull (rev s)) -> In v s) /\
    (forall u c, 0 <= py u -> (forall v, In v (half_hull (rev s)) -> dotp u v <= c) -> forall v, In v s -> dotp u v <= c)).
  { destruct (@exists_last _ s) as (m & z & Es); [intros E; rewrite E in Ls; simpl in Ls; lia|].
    assert (Mx : forall p, In p l -> px p <= px z).
    { intros p I. apply IN in I. rewrite Es in I, S. destruct (ss_app _ _ _ S) as (_ & _ & X). apply in_app_or in I.
      destruct I as [I|[<-|[]]]; [exact (X p z I (or_introl eq_refl))|lra]. }
    set (t := map ngp (rev s)).
    assert (St : StronglySorted (lex (@px R)) t).
    { apply (ss_map ngp _ (fun x y => lex (@px R) y x)).
      - intros x y. unfold lex; cbn [ngp px]. lra.
      - apply (ss_rev (lex (@px R))); [auto|exact S]. }
    assert (Ht : match t with [] => True | p :: _ => px p = - px z end).
    { unfold t. rewrite Es, rev_app_distr. reflexivity. }
    assert (Ft : filter (fun p => Reqb (px p) (- px z)) t = map ngp (rev (filter (fun p => Reqb (px p) (px z)) l))).
    { unfold t. rewrite filter_map_eq, filter_rev, C. reflexivity. }
    assert (K : (forall v, In v (half_hull t) -> In v t) /\
      (forall u c, py u <= 0 -> (forall v, In v (half_hull t) -> dotp u v <= c) -> forall v, In v t -> dotp u v <= c)).
    { destruct (W (px z) (or_intror Mx)) as [U|U].
      - assert (U' : StronglySorted (fun p q => py p <= py q) (filter (fun p => Reqb (px p) (- px z)) t)).
        { rewrite Ft. apply (ss_map ngp _ (fun x y => py y <= py x)); [intros x y; cbn [ngp py]; lra|].
          apply (ss_rev (fun p q : rpoint => py p <= py q)); [auto|exact U]. }
        destruct (half_ok (- px z) false t St Ht U') as (_ & A & B). split; assumption.
      - assert (U' : StronglySorted (fun p q => py q <= py p) (filter (fun p => Reqb (px p) (- px z)) t)).
        { rewrite Ft. apply (ss_map ngp _ (fun x y => py x <= py y)); [intros x y; cbn [ngp py]; lra|].
          apply (ss_rev (fun p q : rpoint => py q <= py p)); [auto|exact U]. }
        destruct (half_ok (- px z) true t St Ht U') as (_ & A & B). split; assumption. }
    destruct K as (K1 & K2). unfold t in K1, K2. rewrite half_ngp in K1, K2.
    split.
    - intros v I. specialize (K1 (ngp v) (in_map ngp _ _ I)). apply in_map_iff in K1. destruct K1 as (w & E & I').
      apply in_rev in I'. apply (f_equal ngp) in E. rewrite !ngp2 in E. subst. exact I'.
    - intros u c U H v I. specialize (K2 (ngp u) c ltac:(cbn [ngp py]; lra)).
      replace (dotp u v) with (dotp (ngp u) (ngp v)) by (unfold dotp, ngp; cbn [px py]; ring).
      apply K2.
      + intros w I'. apply in_map_iff in I'. destruct I' as (w' & <- & I').
        replace (dotp (ngp u) (ngp w')) with (dotp u w') by (unfold dotp, ngp; cbn [px py]; ring). exact (H w' I').
      + apply in_map. apply -> in_rev. exact I. }
  destruct LOW as (L1 & L2), UPP as (U1 & U2).
  set (h := rev (tl (half_hull s)) ++ rev (tl (half_hull (rev s)))).
  assert (SUB : forall v, In v h -> In v l).
  { intros v I. apply IN. unfold h in I. apply in_app_or in I. destruct I as [I|I]; apply in_rev in I.
    - apply L1. destruct (half_hull s); [destruct I|right; exact I].
    - apply U1. destruct (half_hull (rev s)); [destruct I|right; exact I]. }
  (* the ends of one chain belong to the other one *)
  assert (ENDS : forall m, (2 <= length m)%nat -> forall v, In v (half_hull m) -> In v (tl (half_hull m)) \/ In v (tl (half_hull (rev m)))).
  { intros m Lm v I. destruct (@exists_last _ m) as (m' & z & Em); [intros ->; simpl in Lm; lia|].
    destruct (half_hd m' z) as (r & E). rewrite <- Em in E. rewrite E in I |- *. cbn [tl]. destruct I as [<-|I]; [right|left; exact I].
    pose proof (half_last (rev m) z) as La. assert (Lr : (2 <= length (half_hull (rev m)))%nat) by (apply half_size; rewrite rev_length; exact Lm).
    rewrite Em in La at 2. rewrite rev_app_distr in La. cbn [rev app hd] in La.
    destruct (half_hull (rev m)) as [|a [|b q]]; [simpl in Lr; lia|simpl in Lr; lia|]. cbn [tl].
    change (last (b :: q) z = z) in La. rewrite <- La.
    destruct (@exists_last _ (b :: q) ltac:(discriminate)) as (q' & y & Eq). rewrite Eq, last_last. apply in_or_app. right. left. reflexivity. }
  split; [exact SUB|]. intros p I u c H. apply IN in I.
  destruct (Rle_or_lt (py u) 0) as [Sg|Sg].
  - apply (L2 u c Sg); [|exact I]. intros v Iv. apply H. unfold h. apply in_or_app.
    destruct (ENDS s Ls v Iv) as [K|K]; [left|right]; apply -> in_rev; exact K.
  - apply (U2 u c ltac:(lra)); [|exact I]. intros v Iv. apply H. unfold h. apply in_or_app.
    destruct (ENDS (rev s) ltac:(rewrite rev_length; exact Ls) v Iv) as [K|K]; [right|left; rewrite rev_involutive in K]; apply -> in_rev; exact K.
Qed.

(** *** the diameter *)
Lemma pairs_in : forall {A} (l : list A) a b, In (a, b) (pairs l) -> In a l /\ In b l.
Proof.
  intros A l. induction l as [|x l IH]; intros a b I; [destruct I|]. cbn [pairs] in I. apply in_app_or in I. destruct I as [I|I].
  - apply in_map_iff in I. destruct I as (y & E & I). injection E as <- <-. split; [left; reflexivity|right; exact I].
  - destruct (IH a b I). split; right; assumption.
Qed.
Lemma in_pairs : forall {A} (l : list A) a b, In a l -> In b l -> a <> b -> In (a, b) (pairs l) \/ In (b, a) (pairs l).
Proof.
  intros A l. induction l as [|x l IH]; intros a b Ia Ib N; [destruct Ia|]. cbn [pairs].
  destruct Ia as [<-|Ia], Ib as [<-|Ib]; [congruence| | |].
  - left. apply in_or_app. left. apply in_map. exact Ib.
  - right. apply in_or_app. left. apply in_map. exact Ia.
  - destruct (IH a b Ia Ib N); [left|right]; apply in_or_app; right; assumption.
Qed.
Lemma fmax_ok : forall l m, fmax_list l = Some m -> In m l /\ forall x, In x l -> x <= m.
Proof.
  intros [|x r] m E; [discriminate|]. cbn [fmax_list] in E. injection E as <-. revert x.
  induction r as [|y r IH]; intros x; cbn [fold_left].
  - split; [left; reflexivity|]. intros z [<-|[]]. lra.
  - destruct (IH (fmax_last x y)) as (A & B). unfold fmax_last in *; cbn [fle RNum RNumT] in *.
    destruct (Rleb x y) eqn:E; [apply Rleb_spec in E|apply Rleb_nspec in E].
    + split; [right; exact A|]. specialize (B y (or_introl eq_refl)) as By. intros z [<-|[<-|I]]; [lra|lra|apply B; right; exact I].
    + split; [destruct A as [A|A]; [left; exact A|right; right; exact A]|].
      specialize (B x (or_introl eq_refl)) as Bx. intros z [<-|[<-|I]]; [lra|lra|apply B; right; exact I].
Qed.
Lemma argmax : forall {A} (f : A -> R) l, l <> [] -> exists x, In x l /\ forall y, In y l -> f y <= f x.
Proof.
  intros A f l N. destruct (argmin (fun x => - f x) l N) as (x & I & H). exists x. split; [exact I|]. intros y J. specialize (H y J). lra.
Qed.
Lemma spread : forall h p q, (forall v, In v [p; q] -> in_hull h v) -> p <> q -> h <> [] ->
  exists v w, In v h /\ In w h /\ v <> w /\ edist p q <= edist v w.
Proof.
  intros h p q I N NE. set (u := Pt (px p - px q) (py p - py q)).
  destruct (argmax (dotp u) h NE) as (v & Iv & Hv). destruct (argmin (dotp u) h NE) as (w & Iw & Hw).
  assert (P : dotp u p <= dotp u v) by (apply (I p (or_introl eq_refl)); exact Hv).
  assert (Q : dotp u w <= dotp u q).
  { assert (K : dotp (ngp u) q <= - dotp u w).
    { apply (I q (or_intror (or_introl eq_refl))). intros x X. specialize (Hw x X). unfold dotp, ngp in *; cbn [px py] in *. lra. }
    unfold dotp, ngp in *; cbn [px py] in *. lra. }
  assert (S : (px p - px q) ^ 2 + (py p - py q) ^ 2 <= dotp u (Pt (px v - px w) (py v - py w))).
  { unfold dotp, u in *; cbn [px py] in *. lra. }
  pose proof (edist_sq p q) as E. set (d := edist p q) in *. assert (D0 : 0 <= d) by apply edist_nonneg.
  assert (Dp : 0 < d).
  { destruct (Rle_lt_or_eq_dec _ _ D0) as [?|Z]; [assumption|]. exfalso. apply N. rewrite <- Z, Rmult_0_l in E. symmetry in E.
    destruct (sumsq0 _ _ E). apply pt_ext; lra. }
  exists v, w. split; [exact Iv|]. split; [exact Iw|].
  pose proof (edist_sq v w) as F. set (e := edist v w) in *. assert (E0 : 0 <= e) by apply edist_nonneg.
  rewrite <- E in S. unfold dotp, u in S; cbn [px py] in S.
  set (a := px p - px q) in *. set (b := py p - py q) in *. set (x := px v - px w) in *. set (y := py v - py w) in *.
  assert (CS : (a * x + b * y) ^ 2 <= (d * d) * (e * e)).
  { rewrite E, F. pose proof (pow2_ge_0 (a * y - b * x)). nra. }
  split.
  - intros Z. assert (x = 0 /\ y = 0) as (Zx & Zy) by (unfold x, y; rewrite Z; split; ring). rewrite Zx, Zy in S. nra.
  - destruct (Rle_or_lt d e) as [?|L]; [assumption|exfalso].
    assert (d * d * (d * d) <= (a * x + b * y) ^ 2) by nra.
    assert (e * e < d * d) by nra. assert (0 < d * d) by nra. nra.
Qed.
Lemma hull_nonempty : forall l : list rpoint, (2 <= length l)%nat -> (2 <= length (convex_hull l))%nat.
Proof.
  intros l L. unfold convex_hull. destruct (sort_ok (@px R) l) as (_ & P & _). set (s := sort_by (@px R) l) in *.
  assert (Ls : (2 <= length s)%nat) by (rewrite (Permutation_length P); exact L).
  rewrite app_length, !rev_length. pose proof (half_size s Ls). pose proof (half_size (rev s) ltac:(rewrite rev_length; exact Ls)).
  destruct (half_hull s) as [|? [|? ?]]; cbn [length tl] in *; try lia. destruct (half_hull (rev s)); cbn [length tl] in *; lia.
Qed.
Theorem diameter_total : forall l : list rpoint, (2 <= length l)%nat -> exists d, calculate_diameter l = Ok d.
Proof.
  intros l L. unfold calculate_diameter. pose proof (hull_nonempty l L) as H.
  destruct (convex_hull l) as [|a [|b r]]; cbn [length] in H; [lia|lia|]. cbn. eexists. reflexivity.
Qed.
Theorem diameter_ok : forall l d, (2 <= length l)%nat -> sides_one_way l -> calculate_diameter l = Ok d -> diameter_of l d.
Proof.
  intros l d L W E. destruct (hull_ok l L W) as (S & H). pose proof (hull_nonempty l L) as NE.
  unfold calculate_diameter in E.
  destruct (fmax_list (map (fun p => pt_sqdist (fst p) (snd p)) (pairs (convex_hull l)))) as [m|] eqn:M; [|discriminate].
  cbn [expect rbind] in E. injection E as <-. apply fmax_ok in M. destruct M as (M1 & M2).
  apply in_map_iff in M1. destruct M1 as ((a & b) & E & I). cbn [fst snd] in E. rewrite pt_sqdist_ok in E.
  assert (Em : fsqrt m = edist a b) by (rewrite <- E; cbn [fsqrt RNum RNumT]; apply sqrt_square, edist_nonneg).
  change (sqrt m) with (fsqrt m). rewrite Em. apply pairs_in in I. destruct I as (Ia & Ib). split.
  - exists a, b. repeat split; auto.
  - intros p q Ip Iq. destruct (pt_eq p q) eqn:Q.
    + apply pt_eq_ok in Q. subst. rewrite edist_refl. apply edist_nonneg.
    + assert (N : p <> q) by (intros ->; assert (pt_eq q q = true) by (apply pt_eq_ok; reflexivity); congruence).
      destruct (spread (convex_hull l) p q) as (v & w & Iv & Iw & Nvw & Lvw).
      * intros x [<-|[<-|[]]]; apply H; assumption.
      * exact N.
      * intros Z. rewrite Z in NE. simpl in NE. lia.
      * apply Rle_trans with (1 := Lvw).
        assert (K : edist v w * edist v w <= m).
        { destruct (in_pairs _ v w Iv Iw Nvw) as [K|K]; apply (in_map (fun p => pt_sqdist (fst p) (snd p))) in K;
            apply M2 in K; cbn [fst snd] in K; rewrite pt_sqdist_ok in K; [exact K|]. rewrite (edist_sym w v) in K. exact K. }
        rewrite <- E in K. pose proof (edist_nonneg v w). pose proof (edist_nonneg a b). nra.
Qed.

(** *** three vertices on the left side, out of order *)
Ltac rcmp := repeat (match goal with
  | |- context [Rltb ?a ?b] => first [replace (Rltb a b) with true by (symmetry; apply Rltb_spec; lra)
                                     |replace (Rltb a b) with false by (symmetry; apply Rltb_nspec; lra)]
  | |- context [Rleb ?a ?b] => first [replace (Rleb a b) with true by (symmetry; apply Rleb_spec; lra)
                                     |replace (Rleb a b) with false by (symmetry; apply Rleb_nspec; lra)]
  end; cbn [fold_left insert_by rev app tl px py flt fle fsub fmul f0 RNum RNumT]).
Lemma grow_one : forall b np : rpoint, grow_hull [b] np = [np; b].
Proof. reflexivity. Qed.
Lemma grow_nil : forall np : rpoint, grow_hull [] np = [np].
Proof. reflexivity. Qed.
Ltac rgrow := repeat (rewrite grow_cons || rewrite grow_one || rewrite grow_nil; unfold cross; cbn [px py fsub fmul RNum RNumT]; rcmp).
Definition bad_hull : list rpoint := [Pt 0 1; Pt 0 0; Pt 1 2; Pt 0 2].
Lemma bad_hull_eq : convex_hull bad_hull = [Pt 0 1; Pt 1 2; Pt 0 2].
Proof.
  unfold convex_hull.
  assert (S : sort_by (@px R) bad_hull = [Pt 0 1; Pt 0 0; Pt 0 2; Pt 1 2]).
  { unfold sort_by, bad_hull. cbn [fold_left insert_by px flt RNum RNumT]. rcmp. reflexivity. }
  rewrite S.
  assert (L : half_hull [Pt 0 1; Pt 0 0; Pt 0 2; Pt 1 2] = [Pt 1 2; Pt 0 1]).
  { unfold half_hull. cbn [fold_left]. rgrow. reflexivity. }
  assert (U : half_hull (rev [Pt 0 1; Pt 0 0; Pt 0 2; Pt 1 2]) = [Pt 0 1; Pt 0 2; Pt 1 2]).
  { unfold half_hull. cbn [rev app fold_left]. rgrow. reflexivity. }
  rewrite L, U. reflexivity.
Qed.
Theorem hull_loses : exists l p, NoDup l /\ 0 < shoelace l /\ nondegenerate l /\ no_spikes l /\
  In p l /\ ~ in_hull (convex_hull l) p /\ exists d, calculate_diameter l = Ok d /\ ~ diameter_of l d.
Proof.
  exists bad_hull, (Pt 0 0). split; [|split; [|split; [|split; [|split; [|split]]]]].
  - unfold bad_hull. repeat constructor; cbn [In]; intros H; repeat (destruct H as [H|H]; [injection H; intros; lra|]); exact H.
  - unfold shoelace, total, bad_hull, ring; cbn. lra.
  - unfold nondegenerate, bad_hull, ring. cbn [path_edges In]. intros e H. repeat (destruct H as [<-|H]; [cbn; intros K; injection K; intros; lra|]). destruct H.
  - unfold no_spikes, bad_hull, ring. cbn [path_edges In]. intros e f H K.
    repeat (destruct H as [<-|H]; [repeat (destruct K as [<-|K]; [unfold edet, edot; cbn; intros E; try (injection E; intros; lra); intros; lra|]); destruct K|]). destruct H.
  - unfold bad_hull. cbn. tauto.
  - rewrite bad_hull_eq. intros I. specialize (I (Pt 0 (-1)) (-1)). unfold dotp in I; cbn [px py] in I.
    assert (0 * 0 + -1 * 0 <= -1); [|lra]. apply I. cbn [In]. intros v [<-|[<-|[<-|[]]]]; cbn [px py]; lra.
  - destruct (diameter_total bad_hull) as (d & E); [cbn; lia|]. exists d. split; [exact E|].
    intros (_ & M). unfold calculate_diameter in E. rewrite bad_hull_eq in E.
    destruct (fmax_list (map (fun p => pt_sqdist (fst p) (snd p)) (pairs [Pt 0 1; Pt 1 2; Pt 0 2]))) as [m|] eqn:Em; [|discriminate].
    cbn [expect rbind] in E. injection E as <-. apply fmax_ok in Em. destruct Em as (Im & _).
    assert (m <= 2).
    { cbn [pairs map app fst snd In] in Im. unfold pt_sqdist, fsq in Im; cbn [px py fadd fsub fmul RNum RNumT] in Im.
      destruct Im as [<-|[<-|[<-|[]]]]; lra. }
    specialize (M (Pt 0 0) (Pt 1 2)). unfold bad_hull in M. specialize (M ltac:(cbn; tauto) ltac:(cbn; tauto)).
    unfold edist in M; cbn [px py] in M. replace ((0 - 1) ^ 2 + (0 - 2) ^ 2) with 5 in M by ring.
    change (sqrt 5 <= sqrt m) in M. assert (sqrt m <= sqrt 2) by (apply sqrt_le_1_alt; assumption).
    assert (sqrt 2 < sqrt 5) by (apply sqrt_lt_1; lra). lra.
Qed.
