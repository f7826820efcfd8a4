(** Concrete instances used to run the model: a linear search satisfying the
    contract of [slice::binary_search_by], decidable equality of [nat], and a fast
    arithmetic. *)
From Coq Require Import List Bool Arith ZArith Lia.
From Verif Require Import Base Num HazardModel.
Import ListNotations.

(** first [Equal] element, or the number of leading [Less] elements *)
Fixpoint lin {A} (f : A -> comparison) (i : nat) (l : list A) : bsres :=
  match l with
  | [] => BInsert i
  | x :: r => match f x with
              | Lt => lin f (S i) r
              | Eq => BFound i
              | Gt => BInsert i
              end
  end.
Definition LinSearch : BSearch := {| bsearch := fun A f l => lin f 0 l |}.

Lemma lin_ok : forall A (f : A -> comparison) l i, bs_partitioned f l ->
  match lin f i l with
  | BFound j => exists x, i <= j /\ nth_error l (j - i) = Some x /\ f x = Eq
  | BInsert j => i <= j /\ j - i <= length l /\ Forall (fun x => f x = Lt) (firstn (j - i) l) /\
                 Forall (fun x => f x = Gt) (skipn (j - i) l)
  end.
Proof.
  intros A f. induction l as [|x l IH]; intros i P; cbn [lin].
  - rewrite Nat.sub_diag. repeat split; auto; constructor.
  - destruct P as (l1 & l2 & l3 & E & H1 & H2 & H3). destruct (f x) eqn:Fx.
    + exists x. rewrite Nat.sub_diag. auto.
    + assert (P : bs_partitioned f l).
      { destruct l1 as [|y l1].
        - destruct l2 as [|y l2].
          + destruct l3 as [|y l3]; [discriminate|]. injection E as <- ->. inversion H3; congruence.
          + injection E as <- ->. inversion H2; congruence.
        - injection E as <- ->. inversion H1; subst. exists l1, l2, l3. auto. }
      specialize (IH (S i) P). destruct (lin f (S i) l) as [j|j].
      * destruct IH as (y & L & Hy & Fy). exists y. split; [lia|]. split; [|exact Fy].
        replace (j - i) with (S (j - S i)) by lia. exact Hy.
      * destruct IH as (L & Hl & A1 & A2). replace (j - i) with (S (j - S i)) by lia.
        cbn [length firstn skipn]. repeat split; auto; lia.
    + rewrite Nat.sub_diag. cbn [firstn skipn]. repeat split; auto; [lia|].
      destruct l1 as [|y l1]; [|injection E as <- ->; inversion H1; congruence].
      destruct l2 as [|y l2]; [|injection E as <- ->; inversion H2; congruence].
      cbn [app] in E. rewrite E. exact H3.
Qed.
Lemma LinSearch_ok : bsearch_ok LinSearch.
Proof.
  intros A f l P. pose proof (lin_ok A f l 0 P) as K. cbn [bsearch LinSearch].
  destruct (lin f 0 l) as [j|j]; rewrite Nat.sub_0_r in K.
  - destruct K as (x & _ & K). eauto.
  - destruct K as (_ & K). exact K.
Qed.

Definition NatEqD : EqD nat := {| deq := Nat.eqb; deq_ok := Nat.eqb_eq |}.

(** fixed-point numbers with four fractional bits, rounding down *)
Definition FixNum : Num Z := {|
  f0 := 0%Z; f1 := 16%Z;
  fadd := Z.add; fsub := Z.sub; fmul a b := (a * b / 16)%Z; fdiv a b := (a * 16 / b)%Z; fneg := Z.opp;
  fabs := Z.abs; fmin := Z.min; fmax := Z.max;
  fle := Z.leb; flt := Z.ltb; feq := Z.eqb;
  fsqrt a := Z.sqrt (a * 16); falmost := Z.eqb; fofN n := (Z.of_nat n * 16)%Z;
  fceilN a := Z.to_nat ((a + 15) / 16); fMAX := (2 ^ 40)%Z
|}.
