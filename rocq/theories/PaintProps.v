(* Property theorems C15 (painting) and C34 (painting of several species), and the refuted
   claims C66 and C67. *)
From Verif Require Import Base BaseProofs Num PaintModel PaintSpec PaintProofs.
Local Open Scope Qc_scope.

(* C15: for every throttle pattern the loop ends; either it gives up with RuntimeError, which
   needs a throttled attempt, or every selected particle of every rank is in the field once *)
Theorem C15_exactly_once : forall (P : Type) (kern kern2 : P -> field) ncell volume compose
    throttle max_chunk interlaced normalize out (ranks : list (columns P)),
  Forall aligned ranks -> (1 <= max_chunk)%Z ->
  (exists r f1 f2, to_real_field P kern kern2 ncell volume compose throttle max_chunk interlaced normalize out ranks = Ok r /\
     (forall c, f1 c = deposit kern (all_selected ranks) c) /\
     (interlaced = true -> forall c, f2 c = deposit kern2 (all_selected ranks) c) /\
     aN r = zlen (all_selected ranks) /\ aW r = qsum (map w (all_selected ranks)) /\
     aW2 r = qsum (map (fun p => w p * w p) (all_selected ranks)) /\
     nbar r = aW r / nq ncell /\
     shotnoise r = (if Qc_eq_dec (aW r * aW r) 0 then None else Some (volume * (aW2 r / (aW r * aW r)))) /\
     forall c, cells r c = if normalize
                           then (if Qclt_le_dec 0 (nbar r) then painted compose interlaced out f1 f2 c / nbar r else 1)
                           else painted compose interlaced out f1 f2 c) \/
  (to_real_field P kern kern2 ncell volume compose throttle max_chunk interlaced normalize out ranks = Err RuntimeError /\
   exists a, throttle a = true).
Proof. exact to_real_field_ok. Qed.
Print Assumptions C15_exactly_once.

(* three particles on one rank (the second not selected), none on another, one on the third;
   the first attempt is throttled *)
Definition near : bool -> field := fun b c => if (c =? (if b then 1 else 0))%nat then 1 else 0.
Definition average (f g : field) : field := fun c => (f c + g c) / zq 2.
Definition three_ranks : list (columns bool) :=
  [ {| position := [true; false; true]; weight := Some [1; 1; zq 3]; value := None; selection := Some [true; false; true] |};
    {| position := []; weight := None; value := None; selection := None |};
    {| position := [false]; weight := None; value := Some [1]; selection := None |} ].
Definition seen (r : res result) : option (Q * Q * Z * Q * Q) :=
  match r with Ok r => Some (this (cells r 0%nat), this (cells r 1%nat), aN r, this (aW r), this (aW2 r)) | Err _ => None end.
Example C15_exactly_once_ex :
  Forall aligned three_ranks /\
  seen (to_real_field bool near near 2 1 average (fun a => (a =? 0)%nat) 3 false false None three_ranks)
   = Some (1%Q, 4%Q, 3%Z, 5%Q, 11%Q) /\
  seen (to_real_field bool near near 2 1 average (fun _ => false) 3 true true None three_ranks)
   = Some ((2 # 5)%Q, (8 # 5)%Q, 3%Z, 5%Q, 11%Q) /\
  to_real_field bool near near 2 1 average (fun _ => true) 3 false false None three_ranks = Err RuntimeError.
Proof.
  split; [|split; [|split]]; try (vm_compute; reflexivity).
  repeat constructor; intros y; cbn; intros H; try discriminate H; injection H as <-; reflexivity.
Qed.

(* C15: with the unit-mass windows of pmesh the normalised field has mean (sum w v) / (sum w):
   one when there are no values; a catalog without weight gives one everywhere *)
Theorem C15_mean : forall (P : Type) (kern kern2 : P -> field) ncell volume compose
    throttle max_chunk interlaced (ranks : list (columns P)) r,
  Forall aligned ranks -> (1 <= max_chunk)%Z -> (0 < ncell)%nat -> conserves kern kern2 ncell compose ->
  to_real_field P kern kern2 ncell volume compose throttle max_chunk interlaced true None ranks = Ok r ->
  (0 < aW r -> total ncell (cells r) = nq ncell * (qsum (map (fun p => w p * v p) (all_selected ranks)) / aW r)) /\
  (aW r <= 0 -> forall c, cells r c = 1).
Proof. exact mean_ok. Qed.
Print Assumptions C15_mean.
Example C15_mean_ex : conserves near near 2 average /\
  match to_real_field bool near near 2 1 average (fun a => (a =? 1)%nat) 2 true true None three_ranks with
  | Ok r => 0 < aW r /\ this (total 2 (cells r)) = 2%Q
  | Err _ => False
  end.
Proof.
  split.
  - split; [|split]; try (intros []; apply Qc_is_canon; reflexivity). intros f g. unfold total, average. cbn [seq map].
    rewrite !qsum_cons, !qsum_nil. replace (zq 2) with (1 + 1) by reflexivity. field. discriminate.
  - vm_compute. split; reflexivity.
Qed.
Theorem C15_mean_one : forall (P : Type) (kern kern2 : P -> field) ncell volume compose
    throttle max_chunk interlaced (ranks : list (columns P)) r,
  Forall aligned ranks -> (1 <= max_chunk)%Z -> (0 < ncell)%nat -> conserves kern kern2 ncell compose ->
  (forall k, In k ranks -> value k = None) ->
  to_real_field P kern kern2 ncell volume compose throttle max_chunk interlaced true None ranks = Ok r ->
  0 < aW r -> total ncell (cells r) = nq ncell.
Proof. exact mean_one. Qed.
Print Assumptions C15_mean_one.
Example C15_mean_one_ex :
  let ranks := [ {| position := [true; true]; weight := Some [1; zq 2]; value := None; selection := None |} ] in
  match to_real_field bool near near 2 1 average (fun _ => false) 1 false true None ranks with
  | Ok r => 0 < aW r /\ this (total 2 (cells r)) = 2%Q
  | Err _ => False
  end.
Proof. vm_compute. split; reflexivity. Qed.

(* C15: painting into a given field adds to it *)
Theorem C15_out_adds : forall (P : Type) (kern kern2 : P -> field) ncell volume compose
    throttle max_chunk interlaced f (ranks : list (columns P)),
  let trf := to_real_field P kern kern2 ncell volume compose in
  (exists r r0, trf throttle max_chunk interlaced false (Some f) ranks = Ok r /\
     trf throttle max_chunk interlaced false None ranks = Ok r0 /\
     (forall c, cells r c = f c + cells r0 c) /\
     aN r = aN r0 /\ aW r = aW r0 /\ aW2 r = aW2 r0 /\ nbar r = nbar r0 /\ shotnoise r = shotnoise r0) \/
  (exists e, trf throttle max_chunk interlaced false (Some f) ranks = Err e /\ trf throttle max_chunk interlaced false None ranks = Err e).
Proof. exact out_add. Qed.
Print Assumptions C15_out_adds.
Example C15_out_adds_ex :
  seen (to_real_field bool near near 2 1 average (fun a => (a =? 0)%nat) 3 true false (Some (fun _ => zq 7)) three_ranks)
   = Some (8%Q, 11%Q, 3%Z, 5%Q, 11%Q).
Proof. reflexivity. Qed.

(* C34 *)
Theorem C34_species_average : forall (P : Type) (kern kern2 : P -> field) ncell volume compose
    max_chunk interlaced (l : list (species P)),
  (1 <= max_chunk)%Z -> (0 < ncell)%nat -> Forall (fun s => Forall aligned (snd s)) l ->
  (exists R rs, species_field P kern kern2 ncell volume compose max_chunk interlaced true l = Ok R /\
     Forall2 (fun s r => to_real_field P kern kern2 ncell volume compose (fst s) max_chunk interlaced true None (snd s) = Ok r) l rs /\
     s_N R = fold_right Z.add 0%Z (map aN rs) /\
     (Forall (fun r => 0 < aW r) rs -> forall c, s_cells R c = qsum (map (fun r => aW r / qsum (map aW rs) * cells r c) rs)) /\
     (Forall (fun r => aW r <> 0) rs -> qsum (map aW rs) <> 0 ->
        s_shotnoise R = Some (volume * (qsum (map aW2 rs) / (qsum (map aW rs) * qsum (map aW rs)))))) \/
  (species_field P kern kern2 ncell volume compose max_chunk interlaced true l = Err RuntimeError /\
   exists s a, In s l /\ fst s a = true).
Proof. exact species_ok. Qed.
Print Assumptions C34_species_average.
Definition two_species : list (species bool) :=
  [ (fun _ => false, [ {| position := [true; false]; weight := Some [zq 3; 1]; value := None; selection := None |} ]);
    (fun a => (a =? 0)%nat, [ {| position := [false]; weight := Some [zq 4]; value := None; selection := None |} ]) ].
Example C34_species_average_ex :
  match species_field bool near near 2 1 average 2 false true two_species with
  | Ok R => s_N R = 3%Z /\ this (s_cells R 0%nat) = (5 # 4)%Q /\ this (s_cells R 1%nat) = (3 # 4)%Q /\
            option_map this (s_shotnoise R) = Some (13 # 32)%Q
  | Err _ => False
  end.
Proof. vm_compute. split; [|split; [|split]]; reflexivity. Qed.

Theorem C34_species_mean : forall (P : Type) (kern kern2 : P -> field) ncell volume compose
    max_chunk interlaced (l : list (species P)) R rs,
  (1 <= max_chunk)%Z -> (0 < ncell)%nat ->
  Forall (fun s => Forall aligned (snd s)) l -> conserves kern kern2 ncell compose ->
  (forall s p, In s l -> In p (all_selected (snd s)) -> v p = 1) -> l <> [] ->
  species_field P kern kern2 ncell volume compose max_chunk interlaced true l = Ok R ->
  Forall2 (fun s r => to_real_field P kern kern2 ncell volume compose (fst s) max_chunk interlaced true None (snd s) = Ok r) l rs ->
  Forall (fun r => 0 < aW r) rs ->
  total ncell (s_cells R) = nq ncell.
Proof. exact species_mean. Qed.
Print Assumptions C34_species_mean.
Example C34_species_mean_ex :
  match species_field bool near near 2 1 average 2 false true two_species,
        rall (map (fun s => to_real_field bool near near 2 1 average (fst s) 2 false true None (snd s)) two_species) with
  | Ok R, Ok [r1; r2] => 0 < aW r1 /\ 0 < aW r2 /\ this (total 2 (s_cells R)) = 2%Q
  | _, _ => False
  end.
Proof. vm_compute. split; [|split]; reflexivity. Qed.

(* C66 is false: the values enter the field but not its normalisation *)
Theorem C66_mean_one_for_values_refuted : exists (kern : bool -> field) ncell compose (ranks : list (columns bool)) r,
  Forall aligned ranks /\ (0 < ncell)%nat /\ conserves kern kern ncell compose /\
  to_real_field bool kern kern ncell 1 compose (fun _ => false) 10 false true None ranks = Ok r /\
  0 < aW r /\ total ncell (cells r) <> nq ncell.
Proof.
  exists near, 2%nat, average, [ {| position := [true]; weight := None; value := Some [zq 3]; selection := None |} ].
  match goal with |- context [to_real_field ?a ?b ?c ?d ?e ?f ?g ?h ?i ?j ?k ?l] =>
    assert (HT : match to_real_field a b c d e f g h i j k l with Ok r => 0 < aW r /\ this (total 2 (cells r)) = 6%Q | Err _ => False end)
      by (vm_compute; split; reflexivity);
    destruct (to_real_field a b c d e f g h i j k l) as [r|]; [|destruct HT]
  end.
  exists r. split; [|split; [lia|split; [exact (proj1 C15_mean_ex)|split; [reflexivity|split; [exact (proj1 HT)|]]]]].
  - repeat constructor; intros y; cbn; intros H; try discriminate H; injection H as <-; reflexivity.
  - destruct HT as [_ HT]. intros H. rewrite H in HT. vm_compute in HT. discriminate HT.
Qed.
Print Assumptions C66_mean_one_for_values_refuted.

(* C67 is false: a species without selected particles makes the shot noise of all nan *)
Theorem C67_empty_species_shotnoise_refuted : exists (l : list (species bool)) R,
  Forall (fun s => Forall aligned (snd s)) l /\
  species_field bool near near 2 1 average 10 false true l = Ok R /\
  0 < qsum (map (fun p => w p) (concat (map (fun s => all_selected (snd s)) l))) /\
  s_shotnoise R = None.
Proof.
  exists [ (fun _ => false, [ {| position := [true]; weight := None; value := None; selection := None |} ]);
           (fun _ => false, [ {| position := [false]; weight := None; value := None; selection := Some [false] |} ]) ].
  match goal with |- context [species_field ?a ?b ?c ?d ?e ?f ?g ?h ?i ?j] =>
    assert (HT : match species_field a b c d e f g h i j with Ok r => s_shotnoise r = None | Err _ => False end)
      by (vm_compute; reflexivity);
    destruct (species_field a b c d e f g h i j) as [R|]; [|destruct HT]
  end.
  exists R. split; [|split; [reflexivity|split; [vm_compute; reflexivity|exact HT]]].
  repeat constructor; intros y; cbn; intros H; try discriminate H; injection H as <-; reflexivity.
Qed.
Print Assumptions C67_empty_species_shotnoise_refuted.
