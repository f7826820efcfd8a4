(** Concrete engines, histories and queries, run with rational arithmetic: they
    show that the hypotheses of the theorems are met, and are the witnesses of the
    refuted statements. *)
From Coq Require Import List Bool Arith ZArith QArith Lia Permutation.
From Verif Require Import Base Num GeoModel HazardModel QTModel TransfModel HpgModel CdeModel CdeSpec
  Instances.
Import ListNotations.
Local Open Scope nat_scope.

#[export] Existing Instance QNum.
#[export] Existing Instance NatEqD.
#[export] Existing Instance LinSearch.

Definition is_ok {A} (r : res A) : bool := match r with Ok _ => true | Panic => false end.
Definition pt (x y : Z) : point Q := Pt (inject_Z x) (inject_Z y).
(** axis-parallel rectangle polygon, counter-clockwise, with one pole in its centre
    and its diagonal as pier *)
Definition box (x0 y0 x1 y1 : Z) : poly Q :=
  let pts := [pt x0 y0; pt x1 y0; pt x1 y1; pt x0 y1] in
  let c := Ci (Pt ((x0 + x1) # 2) ((y0 + y1) # 2)) ((Z.min (x1 - x0) (y1 - y0)) # 2) in
  Poly pts (bbox_of_points pts) (calculate_area pts) (inject_Z 0) c
       (Some (Sur [0; 1; 2; 3] [c] c [Ed (pt x0 y0) (pt x1 y1)] 1)).

Definition bin_box : rect Q := Rc (inject_Z 0) (inject_Z 0) (inject_Z 32) (inject_Z 32).
Definition exterior : hazard Q nat := Hz BinExterior (Arc 0 (box 0 0 32 32)) true.
Definition item (id x0 y0 x1 y1 : nat) : hazard Q nat :=
  Hz (PlacedItem id 0) (Arc (S id) (box (Z.of_nat x0) (Z.of_nat y0) (Z.of_nat x1) (Z.of_nat y1))) true.
Definition zone (id x0 y0 x1 y1 : nat) : hazard Q nat :=
  Hz (InferiorQualityZone 0 id) (Arc (S id) (box (Z.of_nat x0) (Z.of_nat y0) (Z.of_nat x1) (Z.of_nat y1))) true.
Definition itA := item 1 1 1 5 5.
Definition itB := item 2 9 9 13 14.
Definition itC := item 3 2 10 5 15.

(** boolean checks of validity *)
Definition good_polyb (s : poly Q) : bool := forallb (fun i => is_ok (get_edge s i)) (seq 0 (n_points s)).
Lemma good_polyb_ok : forall s, good_polyb s = true -> good_poly s.
Proof.
  intros s H i Hi. unfold good_polyb in H. rewrite forallb_forall in H.
  specialize (H i (proj2 (in_seq _ _ _) (conj (Nat.le_0_l i) Hi))).
  destruct (get_edge s i) as [e|]; [eauto|discriminate].
Qed.
Definition shape_of (hs : list (hazard Q nat)) (e : entity nat) : poly Q * bool :=
  match find (fun h => ent_eqb (h_ent h) e) hs with
  | Some h => (a_obj (h_shape h), h_active h)
  | None => (box 0 0 1 1, true)
  end.

Ltac check :=
  repeat match goal with
  | |- _ /\ _ => split
  | |- True => exact I
  | |- good_poly _ => apply good_polyb_ok; vm_compute; reflexivity
  | |- denotes _ _ => vm_compute; reflexivity
  | |- ~ _ => vm_compute; intuition congruence
  | |- Forall _ _ => constructor
  | |- NoDup _ => constructor
  | |- In _ _ => vm_compute; tauto
  | |- _ < _ => vm_compute; lia
  end.

(** a history with deferred removals, a re-registration, a snapshot and a restore *)
Definition ops1 : list (op Q nat) :=
  [OReg itA; OReg itB; ODereg (PlacedItem 1 0) false; OReg itC; OReg itA;
   ODereg (PlacedItem 2 0) false; OSnap; ODereg (PlacedItem 3 0) true; OReg itB; OCommit;
   ODereg (PlacedItem 1 0) false; ORestore 0].
Lemma ops1_valid : valid [exterior] ops1.
Proof.
  split; [split; check|]. exists (shape_of [itA; itB; itC]). unfold ops1. cbn [ops_ok op_ok astep]. check.
Qed.
(** the hazards it leaves *)
Definition ops2 : list (op Q nat) := [OReg itA; OReg itC].
Lemma ops2_valid : valid [exterior] ops2.
Proof.
  split; [split; check|]. exists (shape_of [itA; itB; itC]). unfold ops2. cbn [ops_ok op_ok astep]. check.
Qed.
Definition ops3 : list (op Q nat) := [OReg itC; OReg itA; OReg itB].
Lemma ops3_valid : valid [exterior] ops3.
Proof.
  split; [split; check|]. exists (shape_of [itA; itB; itC]). unfold ops3. cbn [ops_ok op_ok astep]. check.
Qed.
Lemma ops1_facts : Permutation (facts [exterior] ops1) (facts [exterior] ops2).
Proof. apply perm_skip. vm_compute. apply perm_swap. Qed.

(** engine after a history; the fallback is never used *)
Definition eng (st : list (hazard Q nat)) (n : nat) (ops : list (op Q nat)) : cde Q nat :=
  match engine bin_box st 4 n ops with
  | Ok (c, _) => c
  | Panic => Cde (node_new 0 bin_box) [] [] None bin_box []
  end.
Lemma ops1_runs : is_ok (engine bin_box [exterior] 4 5 ops1) = true.
Proof. vm_compute. reflexivity. Qed.

(** a query box that touches itA and one that is free *)
Definition q_hit : poly Q := box 4 4 8 8.
Definition q_free : poly Q := box 6 1 9 4.
Lemma ops1_asks :
  ask (eng [exterior] 5 ops1) (AskPoly q_hit []) = Ok TTrue /\
  ask (eng [exterior] 5 ops1) (AskPoly q_hit [PlacedItem 1 0]) = Ok TFalse /\
  ask (eng [exterior] 5 ops1) (AskPoly q_free []) = Ok TFalse /\
  ask (eng [exterior] 5 ops3) (AskPoly (box 10 10 12 12) []) = Ok TTrue /\
  ask (eng [exterior] 5 ops1) (AskPoly (box 10 10 12 12) []) = Ok TFalse /\
  ask (eng [exterior] 5 ops1) (AskPoint (Pt (inject_Z 3) (inject_Z 3)) (PlacedItem 1 0)) = Ok TTrue.
Proof. vm_compute. repeat split; reflexivity. Qed.

(** hidden hazard: the quality zone crosses the query inside a quadrant that the
    item covers entirely *)
Definition zoneX := zone 7 12 2 13 12.
Definition itemX := item 1 7 7 17 17.
Definition q_hidden : poly Q := box 10 10 15 15.
Lemma hidden_valid : valid [exterior; zoneX] [OReg itemX].
Proof.
  split; [split; check|]. exists (shape_of [itemX]). cbn [ops_ok op_ok astep]. check.
Qed.
Lemma hidden_runs :
  collect (eng [exterior; zoneX] 0 [OReg itemX]) (CollPoly q_hidden) [] [] = Ok [PlacedItem 1 0] /\
  ask (eng [] 0 [OReg zoneX]) (AskPoly q_hidden []) = Ok TTrue /\
  ask (eng [exterior; zoneX] 0 [OReg itemX]) (AskPoly q_hidden [PlacedItem 1 0]) = Ok TTrue.
Proof. vm_compute. repeat split; reflexivity. Qed.

(** an item that surrounds the whole bin *)
Definition q_around : poly Q := box (-5) (-5) 40 40.
Lemma around_valid : valid [exterior] [].
Proof. split; [split; check|]. exists (shape_of []). cbn [ops_ok]. check. Qed.
Lemma around_runs :
  ask (eng [exterior] 0 []) (AskPoly q_around []) = Ok TTrue /\
  collect (eng [exterior] 0 []) (CollPoly q_around) [] [] = Ok [].
Proof. vm_compute. repeat split; reflexivity. Qed.

(** a hazard whose [active] flag is off *)
Definition dormant : hazard Q nat := Hz (PlacedItem 4 0) (Arc 9 (box 3 3 9 9)) false.
Lemma dormant_valid : valid [exterior] [OReg dormant].
Proof.
  split; [split; check|]. exists (shape_of [dormant]). cbn [ops_ok op_ok astep]. check.
Qed.
Lemma dormant_runs :
  reported (eng [exterior] 0 [OReg dormant]) (edge_query (Ed (pt 2 5) (pt 5 5))) [] = Ok (Some (PlacedItem 4 0)).
Proof. vm_compute. reflexivity. Qed.
Lemma eng_ok : forall st n ops, is_ok (engine bin_box st 4 n ops) = true ->
  exists sn, engine bin_box st 4 n ops = Ok (eng st n ops, sn).
Proof.
  intros st n ops H. unfold eng. destruct (engine bin_box st 4 n ops) as [[c sn]|]; [eauto|discriminate].
Qed.
