(** Lemmas on the vocabulary of [Base]. *)
From Coq Require Import List Bool Arith ZArith Lia Permutation.
From Verif Require Import Base.
Import ListNotations.

Lemma rbind_ok : forall {A B} (x : res A) (f : A -> res B) b,
  rbind x f = Ok b -> exists a, x = Ok a /\ f a = Ok b.
Proof. intros A B [a|] f b H; simpl in H; [eauto|discriminate]. Qed.

Lemma expect_ok : forall {A} (o : option A) a, expect o = Ok a -> o = Some a.
Proof. intros A [x|] a H; simpl in H; congruence. Qed.

Lemma rany_ok : forall {A} (f : A -> res bool) (g : A -> bool) l,
  (forall x, In x l -> f x = Ok (g x)) -> rany f l = Ok (existsb g l).
Proof.
  induction l as [|x l IH]; intros H; simpl; [reflexivity|].
  rewrite (H x (or_introl eq_refl)). simpl.
  destruct (g x); simpl; [reflexivity|]. apply IH. intros; apply H; right; auto.
Qed.

Lemma rfind_ok : forall {A} (f : A -> res bool) (g : A -> bool) l,
  (forall x, In x l -> f x = Ok (g x)) -> rfind f l = Ok (find g l).
Proof.
  induction l as [|x l IH]; intros H; simpl; [reflexivity|].
  rewrite (H x (or_introl eq_refl)). simpl.
  destruct (g x); simpl; [reflexivity|]. apply IH. intros; apply H; right; auto.
Qed.

Lemma rmapM_ok : forall {A B} (f : A -> res B) (g : A -> B) l,
  (forall x, In x l -> f x = Ok (g x)) -> rmapM f l = Ok (map g l).
Proof.
  induction l as [|x l IH]; intros H; simpl; [reflexivity|].
  rewrite (H x (or_introl eq_refl)). simpl. rewrite IH; [reflexivity|].
  intros; apply H; right; auto.
Qed.

Lemma rfold_ok : forall {A B} (f : A -> B -> res A) (g : A -> B -> A) l a,
  (forall a x, In x l -> f a x = Ok (g a x)) -> rfold f l a = Ok (fold_left g l a).
Proof.
  induction l as [|x l IH]; intros a H; simpl; [reflexivity|].
  rewrite (H a x (or_introl eq_refl)). simpl. apply IH.
  intros; apply H; right; auto.
Qed.

Lemma rfold_inv : forall {A B} (f : A -> B -> res A) (P : list B -> A -> Prop) l a,
  P [] a ->
  (forall done x a, P done a -> In x l -> exists a', f a x = Ok a' /\ P (done ++ [x]) a') ->
  exists a', rfold f l a = Ok a' /\ P l a'.
Proof.
  intros A B f P l.
  assert (G : forall l done a, (forall done x a, P done a -> In x l ->
             exists a', f a x = Ok a' /\ P (done ++ [x]) a') -> P done a ->
             exists a', rfold f l a = Ok a' /\ P (done ++ l) a').
  { clear l. induction l as [|x l IH]; intros done a H HP; simpl.
    - rewrite app_nil_r. eauto.
    - destruct (H done x a HP (or_introl eq_refl)) as (a' & E & HP').
      rewrite E. simpl. destruct (IH (done ++ [x]) a') as (a'' & E' & HP'').
      + intros; apply H; auto; right; auto.
      + exact HP'.
      + exists a''. split; [exact E'|]. rewrite <- app_assoc in HP''. exact HP''. }
  intros a H0 H. apply (G l [] a H H0).
Qed.

Lemma rfold_app : forall {A B} (f : A -> B -> res A) l1 l2 a,
  rfold f (l1 ++ l2) a = (a' <- rfold f l1 a ;; rfold f l2 a').
Proof.
  induction l1 as [|x l1 IH]; intros l2 a; simpl; [reflexivity|].
  destruct (f a x); simpl; auto.
Qed.

(** *** position / vremove / vinsert *)
Lemma position_none : forall {A} (f : A -> bool) l,
  position f l = None <-> (forall x, In x l -> f x = false).
Proof.
  induction l as [|x l IH]; simpl.
  - split; [intros _ y []|reflexivity].
  - destruct (f x) eqn:E.
    + split; [discriminate|]. intros H. rewrite (H x (or_introl eq_refl)) in E. discriminate.
    + destruct (position f l) eqn:P; simpl.
      * split; [discriminate|]. intros H. destruct IH as [_ IH].
        discriminate IH. intros; apply H; auto.
      * split; [|reflexivity]. intros _ y [<-|Hy]; [exact E|]. apply IH; auto.
Qed.

Lemma position_some : forall {A} (f : A -> bool) l i,
  position f l = Some i ->
  exists l1 x l2, l = l1 ++ x :: l2 /\ length l1 = i /\ f x = true /\
                  (forall y, In y l1 -> f y = false).
Proof.
  induction l as [|x l IH]; simpl; intros i H; [discriminate|].
  destruct (f x) eqn:E.
  - injection H as <-. exists [], x, l. repeat split; auto. intros y [].
  - destruct (position f l) as [j|] eqn:P; simpl in H; [|discriminate].
    injection H as <-. destruct (IH j eq_refl) as (l1 & y & l2 & -> & L & Fy & F1).
    exists (x :: l1), y, l2. simpl. repeat split; auto. intros z [<-|Hz]; auto.
Qed.

Lemma vremove_app : forall {A} (l1 : list A) x l2,
  vremove (length l1) (l1 ++ x :: l2) = Some (x, l1 ++ l2).
Proof. induction l1; intros; simpl; [reflexivity|]. rewrite IHl1. reflexivity. Qed.

Lemma vset_app : forall {A} (l1 : list A) x l2 y,
  vset (length l1) y (l1 ++ x :: l2) = l1 ++ y :: l2.
Proof. induction l1; intros; simpl; [reflexivity|]. rewrite IHl1. reflexivity. Qed.

Lemma vset_length : forall {A} i (y : A) l, length (vset i y l) = length l.
Proof. intros A i y l; revert i; induction l as [|x l IH]; intros [|i]; simpl; auto. Qed.

Lemma nth_error_vset_eq : forall {A} i (y : A) l, i < length l ->
  nth_error (vset i y l) i = Some y.
Proof.
  intros A i y l; revert i; induction l as [|x l IH]; intros [|i] H; simpl in *;
    try lia; auto. apply IH; lia.
Qed.

Lemma nth_error_vset_neq : forall {A} i j (y : A) l, i <> j ->
  nth_error (vset i y l) j = nth_error l j.
Proof.
  intros A i j y l; revert i j; induction l as [|x l IH]; intros [|i] [|j] H; simpl;
    try lia; auto.
Qed.

Lemma removelast_app_cons : forall {A} (l1 : list A) x l2 y,
  removelast (l1 ++ x :: l2 ++ [y]) = l1 ++ x :: l2.
Proof.
  intros. change (x :: l2 ++ [y]) with ((x :: l2) ++ [y]). rewrite app_assoc.
  apply removelast_last.
Qed.

Lemma swap_remove_spec : forall {A} (l1 : list A) x l2,
  swap_remove (length l1) (l1 ++ x :: l2) =
  Some (x, match rev l2 with
           | [] => l1
           | y :: r => l1 ++ y :: rev r
           end).
Proof.
  intros A l1 x l2. unfold swap_remove.
  rewrite nth_error_app2 by lia. rewrite Nat.sub_diag. simpl.
  destruct (rev l2) as [|y r] eqn:E.
  - apply (f_equal (@rev A)) in E. rewrite rev_involutive in E. simpl in E. subst l2.
    rewrite rev_app_distr. simpl. rewrite removelast_last. rewrite Nat.eqb_refl. reflexivity.
  - apply (f_equal (@rev A)) in E. rewrite rev_involutive in E. simpl in E. subst l2.
    rewrite removelast_app_cons.
    replace (rev (l1 ++ x :: rev r ++ [y])) with (y :: rev (l1 ++ x :: rev r)).
    2:{ change (l1 ++ x :: rev r ++ [y]) with (l1 ++ (x :: rev r) ++ [y]).
        rewrite app_assoc. rewrite (rev_app_distr _ [y]). reflexivity. }
    destruct (Nat.eqb_spec (length l1) (length (l1 ++ x :: rev r))) as [E|E].
    + rewrite app_length in E. simpl in E. lia.
    + rewrite vset_app. reflexivity.
Qed.

Lemma swap_remove_perm : forall {A} (l1 : list A) x l2 l',
  swap_remove (length l1) (l1 ++ x :: l2) = Some (x, l') ->
  Permutation l' (l1 ++ l2).
Proof.
  intros A l1 x l2 l'. rewrite swap_remove_spec. intros H. injection H as <-.
  destruct (rev l2) as [|y r] eqn:E.
  - apply (f_equal (@rev A)) in E. rewrite rev_involutive in E. simpl in E. subst.
    rewrite app_nil_r. reflexivity.
  - apply (f_equal (@rev A)) in E. rewrite rev_involutive in E. simpl in E. subst.
    apply Permutation_app_head. change (y :: rev r) with ([y] ++ rev r).
    apply Permutation_app_comm.
Qed.

Lemma vinsert_perm : forall {A} i (x : A) l, Permutation (vinsert i x l) (x :: l).
Proof.
  intros. unfold vinsert. rewrite <- Permutation_middle. rewrite firstn_skipn. reflexivity.
Qed.

(** *** omap *)
Lemma in_omap : forall {A B} (f : A -> option B) l y,
  In y (omap f l) <-> exists x, In x l /\ f x = Some y.
Proof.
  induction l as [|x l IH]; intros y; simpl.
  - split; [intros []|intros (x & [] & _)].
  - destruct (f x) as [z|] eqn:E; simpl; rewrite IH.
    + split.
      * intros [<-|(w & Hw & Ew)]; [exists x; auto|exists w; auto].
      * intros (w & [<-|Hw] & Ew); [left; congruence|right; exists w; auto].
    + split.
      * intros (w & Hw & Ew); exists w; auto.
      * intros (w & [<-|Hw] & Ew); [congruence|exists w; auto].
Qed.

Lemma omap_app : forall {A B} (f : A -> option B) l1 l2,
  omap f (l1 ++ l2) = omap f l1 ++ omap f l2.
Proof.
  induction l1 as [|x l1 IH]; intros; simpl; [reflexivity|].
  destruct (f x); simpl; rewrite IH; reflexivity.
Qed.

Lemma omap_perm : forall {A B} (f : A -> option B) l l',
  Permutation l l' -> Permutation (omap f l) (omap f l').
Proof.
  intros A B f l l' H. induction H; simpl.
  - constructor.
  - destruct (f x); [constructor|]; assumption.
  - destruct (f y), (f x); try apply perm_swap; reflexivity.
  - etransitivity; eassumption.
Qed.

Lemma omap_ext_in : forall {A B} (f g : A -> option B) l,
  (forall x, In x l -> f x = g x) -> omap f l = omap g l.
Proof.
  induction l as [|x l IH]; intros H; simpl; [reflexivity|].
  rewrite (H x (or_introl eq_refl)). rewrite IH by (intros; apply H; right; auto).
  reflexivity.
Qed.

Lemma existsb_perm : forall {A} (f : A -> bool) l l',
  Permutation l l' -> existsb f l = existsb f l'.
Proof.
  intros A f l l' H. induction H; simpl; try congruence.
  destruct (f y), (f x); reflexivity.
Qed.

Lemma existsb_omap : forall {A B} (f : A -> option B) (g : B -> bool) l,
  existsb g (omap f l) =
  existsb (fun x => match f x with Some y => g y | None => false end) l.
Proof.
  induction l as [|x l IH]; simpl; [reflexivity|].
  destruct (f x); simpl; rewrite IH; reflexivity.
Qed.

Lemma existsb_ext_in : forall {A} (f g : A -> bool) l,
  (forall x, In x l -> f x = g x) -> existsb f l = existsb g l.
Proof.
  induction l as [|x l IH]; intros H; simpl; [reflexivity|].
  rewrite (H x (or_introl eq_refl)). rewrite IH by (intros; apply H; right; auto).
  reflexivity.
Qed.

Lemma existsb_false : forall {A} (f : A -> bool) l,
  existsb f l = false <-> (forall x, In x l -> f x = false).
Proof.
  induction l as [|x l IH]; simpl.
  - split; [intros _ y []|reflexivity].
  - rewrite orb_false_iff, IH. split.
    + intros [H1 H2] y [<-|Hy]; auto.
    + intros H; split; [apply H; auto|intros; apply H; auto].
Qed.

Lemma existsb_true_in : forall {A} (f : A -> bool) l x,
  In x l -> f x = true -> existsb f l = true.
Proof. intros. apply existsb_exists. eauto. Qed.

Lemma find_existsb : forall {A} (f : A -> bool) l,
  is_some (find f l) = existsb f l.
Proof. induction l as [|x l IH]; simpl; [reflexivity|]. destruct (f x); auto. Qed.

Lemma q4get_map : forall {A B} (f : A -> B) q i, q4get (q4map f q) i = f (q4get q i).
Proof. intros A B f [a b c d] [|[|[|i]]]; reflexivity. Qed.

Lemma q4_ext : forall {A} (p q : q4 A),
  (forall i, i < 4 -> q4get p i = q4get q i) -> p = q.
Proof.
  intros A [a b c d] [a' b' c' d'] H. 
  f_equal; [apply (H 0)|apply (H 1)|apply (H 2)|apply (H 3)]; lia.
Qed.

Lemma q4get_set_eq : forall {A} (q : q4 A) i x, i < 4 -> q4get (q4set q i x) i = x.
Proof. intros A q [|[|[|[|i]]]] x H; reflexivity. Qed.
Lemma q4get_set_neq : forall {A} (q : q4 A) i j x, i < 4 -> j < 4 -> i <> j ->
  q4get (q4set q i x) j = q4get q j.
Proof.
  intros A q i j x Hi Hj Hij.
  destruct i as [|[|[|[|i]]]]; try lia; destruct j as [|[|[|[|j]]]]; try lia; reflexivity.
Qed.

Lemma perm_filter : forall {A} (f : A -> bool) l l',
  Permutation l l' -> Permutation (filter f l) (filter f l').
Proof.
  intros A f l l' H. induction H; simpl.
  - constructor.
  - destruct (f x); [constructor|]; assumption.
  - destruct (f y), (f x); try apply perm_swap; reflexivity.
  - etransitivity; eassumption.
Qed.
