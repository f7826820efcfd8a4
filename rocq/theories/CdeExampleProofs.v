(** The examples and refutations of [Properties_CDE], proved by running the model. *)
From Coq Require Import List Bool Arith ZArith QArith Lia Permutation.
From Verif Require Import Base Num GeoModel HazardModel QTModel TransfModel HpgModel CdeModel CdeSpec
  Instances CdeExamples.
Import ListNotations.
Local Open Scope nat_scope.

Ltac runs := apply eng_ok; vm_compute; reflexivity.

Definition ex_hvops : list (hvop Q nat) :=
  [HAdd (Qh (PlacedItem 1 0) PEntire true); HAdd (Qh (PlacedItem 2 0) PNone true);
   HAdd (Qh (PlacedItem 3 0) PEntire false); HDeactivate (PlacedItem 2 0);
   HAdd (Qh (BinHole 4) PEntire true); HActivate (PlacedItem 3 0); HRemove (BinHole 4)].
Lemma ex_hv : hvops_ok [] ex_hvops /\
  strongest (fold_left hv_step ex_hvops hv_new) [PlacedItem 1 0] = Ok (Some (Qh (PlacedItem 3 0) PEntire true)).
Proof.
  split; [|vm_compute; reflexivity]. unfold ex_hvops. cbn [hvops_ok hvop_ok hv_astep].
  repeat split; vm_compute; intuition (subst; try congruence; try discriminate); auto.
Qed.

Lemma ex_history :
  valid [exterior] ops1 /\ valid [exterior] ops2 /\
  Permutation (facts [exterior] ops1) (facts [exterior] ops2) /\
  (exists sn, engine bin_box [exterior] 4 5 ops1 = Ok (eng [exterior] 5 ops1, sn)) /\
  (exists sn, engine bin_box [exterior] 4 0 ops2 = Ok (eng [exterior] 0 ops2, sn)) /\
  ask (eng [exterior] 5 ops1) (AskPoly q_hit []) = Ok TTrue /\
  ask (eng [exterior] 0 ops2) (AskPoly q_hit []) = Ok TTrue /\
  ask (eng [exterior] 5 ops1) (AskPoly q_free []) = Ok TFalse.
Proof.
  split; [exact ops1_valid|]. split; [exact ops2_valid|]. split; [exact ops1_facts|].
  split; [runs|]. split; [runs|]. vm_compute. repeat split; reflexivity.
Qed.

Lemma ex_reported :
  reported (eng [exterior] 5 ops1) (edge_query (Ed (pt 3 3) (pt 8 8))) [] = Ok (Some (PlacedItem 1 0)) /\
  reported (eng [exterior] 5 ops1) (edge_query (Ed (pt 3 3) (pt 8 8))) [PlacedItem 1 0] = Ok None.
Proof. vm_compute. repeat split; reflexivity. Qed.

Lemma ex_ignore :
  Permutation (filter (fun f => negb (memb ent_eqb (f_ent f) [PlacedItem 2 0])) (facts [exterior] ops3))
              (facts [exterior] ops2) /\
  ask (eng [exterior] 5 ops3) (AskPoly (box 10 10 12 12) []) = Ok TTrue /\
  ask (eng [exterior] 5 ops3) (AskPoly (box 10 10 12 12) [PlacedItem 2 0]) = Ok TFalse /\
  ask (eng [exterior] 0 ops2) (AskPoly (box 10 10 12 12) []) = Ok TFalse.
Proof.
  split; [vm_compute; apply perm_skip, perm_swap|]. vm_compute. repeat split; reflexivity.
Qed.

Lemma ex_monotone :
  incl (facts [exterior] ops2) (facts [exterior] ops3) /\
  ask (eng [exterior] 0 ops2) (AskPoly (box 10 10 12 12) []) = Ok TFalse /\
  ask (eng [exterior] 5 ops3) (AskPoly (box 10 10 12 12) []) = Ok TTrue.
Proof.
  split; [intros x Hx; vm_compute in *; tauto|]. vm_compute. repeat split; reflexivity.
Qed.

Lemma ex_deferred :
  instant [OReg itA; ODereg (PlacedItem 1 0) false; OReg itB; OCommit; OReg itA] =
    [OReg itA; ODereg (PlacedItem 1 0) true; OReg itB; OReg itA] /\
  ask (eng [exterior] 0 [OReg itA; ODereg (PlacedItem 1 0) false; OReg itB]) (AskPoly q_hit []) = Ok TFalse /\
  ask (eng [exterior] 0 [OReg itA; ODereg (PlacedItem 1 0) false; OReg itB; OCommit; OReg itA])
      (AskPoly q_hit []) = Ok TTrue.
Proof. vm_compute. repeat split; reflexivity. Qed.

Definition ex_before : list (op Q nat) :=
  [OReg itA; OReg itB; ODereg (PlacedItem 1 0) false; OReg itC; OReg itA; ODereg (PlacedItem 2 0) false].
Definition ex_after : list (op Q nat) :=
  [ODereg (PlacedItem 3 0) true; OReg itB; OCommit; ODereg (PlacedItem 1 0) false].
Lemma ex_snapshot :
  valid [exterior] ops1 /\ ops1 = ex_before ++ OSnap :: ex_after ++ [ORestore (snaps ex_before)] /\
  (exists sn, engine bin_box [exterior] 4 5 ops1 = Ok (eng [exterior] 5 ops1, sn)) /\
  (exists sn, engine bin_box [exterior] 4 5 (ex_before ++ [OSnap]) = Ok (eng [exterior] 5 (ex_before ++ [OSnap]), sn)) /\
  is_some (cd_hpg (eng [exterior] 5 ops1)) = true /\
  cd_dyn (eng [exterior] 5 ops1) <> [].
Proof.
  split; [exact ops1_valid|]. split; [reflexivity|]. split; [runs|]. split; [runs|].
  split; [vm_compute; reflexivity|vm_compute; discriminate].
Qed.

Lemma ex_tristate :
  ask (eng [exterior] 5 ops1) (AskCircle (Ci (pt 3 3) 0%Q) []) = Ok TTrue /\
  ask (eng [exterior] 5 ops1) (AskCircle (Ci (pt 5 5) 0%Q) []) = Ok TIndet /\
  ask (eng [exterior] 5 ops1) (AskCircle (Ci (pt 20 20) 1%Q) []) = Ok TFalse.
Proof. vm_compute. repeat split; reflexivity. Qed.
Lemma ex_collect :
  collect (eng [exterior] 5 ops3) (CollPoly (box 3 3 12 12)) [PlacedItem 3 0] [BinHole 5; BinExterior] =
    Ok [BinHole 5; BinExterior; PlacedItem 1 0; PlacedItem 2 0].
Proof. vm_compute. reflexivity. Qed.
Lemma ex_fixpoint :
  collect (eng [exterior] 5 ops3) (CollPoly (box 3 3 12 12)) [PlacedItem 3 0] [PlacedItem 2 0; PlacedItem 1 0] =
    Ok [PlacedItem 2 0; PlacedItem 1 0].
Proof. vm_compute. reflexivity. Qed.
Lemma ex_verdict :
  inside_box bin_box (CollPoly q_hit) /\
  ask (eng [exterior] 5 ops1) (AskPoly q_hit []) = Ok TTrue /\
  collect (eng [exterior] 5 ops1) (CollPoly q_hit) [] [] = Ok [PlacedItem 1 0] /\
  ask (eng [exterior] 5 ops1) (AskPoly q_hit [PlacedItem 1 0]) = Ok TFalse /\
  collect (eng [exterior] 5 ops1) (CollPoly q_hit) [PlacedItem 1 0] [] = Ok [].
Proof. vm_compute. repeat split; reflexivity. Qed.

Lemma collect_incomplete :
  exists (statics : list (hazard Q nat)) (ops : list (op Q nat)) c sn (s : poly Q) (h : hazard Q nat) c1 sn1 l,
    valid statics ops /\ engine bin_box statics 4 0 ops = Ok (c, sn) /\
    good_poly s /\ relation_to bin_box (p_bbox s) = Surrounding /\
    In h (cd_static c ++ cd_dyn c) /\
    engine bin_box [] 4 0 [OReg h] = Ok (c1, sn1) /\ ask c1 (AskPoly s []) = Ok TTrue /\
    collect c (CollPoly s) [] [] = Ok l /\ ~ In (h_ent h) l.
Proof.
  destruct (eng_ok [exterior; zoneX] 0 [OReg itemX]) as (sn & E); [vm_compute; reflexivity|].
  destruct (eng_ok [] 0 [OReg zoneX]) as (sn1 & E1); [vm_compute; reflexivity|].
  destruct hidden_runs as (H1 & H2 & _).
  eexists _, _, _, sn, q_hidden, zoneX, _, sn1, _.
  split; [exact hidden_valid|]. split; [exact E|].
  split; [apply good_polyb_ok; vm_compute; reflexivity|]. split; [vm_compute; reflexivity|].
  split; [vm_compute; tauto|]. split; [exact E1|]. split; [exact H2|]. split; [exact H1|].
  vm_compute. intuition discriminate.
Qed.
Lemma verdict_without_collision :
  exists (statics : list (hazard Q nat)) (ops : list (op Q nat)) c sn (s : poly Q),
    valid statics ops /\ engine bin_box statics 4 0 ops = Ok (c, sn) /\ good_poly s /\
    ask c (AskPoly s []) = Ok TTrue /\ collect c (CollPoly s) [] [] = Ok [].
Proof.
  destruct (eng_ok [exterior] 0 []) as (sn & E); [vm_compute; reflexivity|].
  exists [exterior], [], (eng [exterior] 0 []), sn, q_around.
  split; [exact around_valid|]. split; [exact E|].
  split; [apply good_polyb_ok; vm_compute; reflexivity|]. exact around_runs.
Qed.
Lemma dormant_reported :
  exists (statics : list (hazard Q nat)) (ops : list (op Q nat)) c sn (h : hazard Q nat) (e : edge Q),
    valid statics ops /\ engine bin_box statics 4 0 ops = Ok (c, sn) /\
    In h (cd_dyn c) /\ h_active h = false /\
    reported c (edge_query e) [] = Ok (Some (h_ent h)).
Proof.
  destruct (eng_ok [exterior] 0 [OReg dormant]) as (sn & E); [vm_compute; reflexivity|].
  exists [exterior], [OReg dormant], (eng [exterior] 0 [OReg dormant]), sn, dormant, (Ed (pt 2 5) (pt 5 5)).
  split; [exact dormant_valid|]. split; [exact E|].
  split; [vm_compute; tauto|]. split; [reflexivity|exact dormant_runs].
Qed.
