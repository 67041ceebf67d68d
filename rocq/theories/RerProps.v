(* C351 - C354 *)
From Coq Require Import QArith Qcanon.
From Verif Require Import Base BaseProofs Num PairModel TpcfModel RerModel RerProofs.
Local Open Scope nat_scope.

(* ---- C351: what run() gives the first time and the next times ---- *)
Theorem C351_natural : forall counts natural_of o, o_randoms1 o = None ->
  exists o', run counts natural_of (Some true) false o = (Ok tt, o') /\
    o_out o' = Some (natural_spec counts natural_of (a_objects (o_data1 o))
      (match o_data2 o with None => None | Some d => if Nat.eq_dec (a_id d) (a_id (o_data1 o)) then None else Some (a_objects d) end)) /\
    forall n, exists o'', runs counts natural_of n (Some true) false o' = (Ok tt, o'') /\ o_out o'' = o_out o'.
Proof. exact run_plain_again. Qed.
Print Assumptions C351_natural.
Theorem C351_angular : forall counts natural_of o, o_randoms1 o = None -> boxed (o_data1 o) -> (forall d, o_data2 o = Some d -> boxed d) ->
  exists o' l1 l2, run counts natural_of (Some true) true o = (Ok tt, o') /\
    o_randoms1 o' = None /\ boxed (o_data1 o') /\ (forall d, o_data2 o' = Some d -> boxed d) /\
    a_objects (o_data1 o') = l1 /\ option_map a_objects (o_data2 o') = l2 /\
    counted true (o_data1 o) l1 /\ match o_data2 o, l2 with None, None => True | Some d, Some l => counted true d l | _, _ => False end /\
    o_out o' = Some (natural_spec counts natural_of l1 l2) /\
    (forall n, exists o'', runs counts natural_of n (Some true) true o' = (Ok tt, o'') /\ o_out o'' = o_out o').
Proof. exact run_angular. Qed.
Print Assumptions C351_angular.
Theorem C351_randoms : forall counts natural_of periodic angular o r1, o_randoms1 o = Some r1 -> (forall p, o_R1R2 o <> RStat p) ->
  let r2 := match o_randoms2 o with Some r => r | None => r1 end in
  let D1R2 := pair_count counts (o_data1 o) (Some r2) in
  exists o' t, run counts natural_of periodic angular o = (Ok tt, o') /\ o_out o' = Some t /\
    t_D1D2 t = pair_count counts (o_data1 o) (o_data2 o) /\ t_D1R2 t = Some D1R2 /\
    t_D2R1 t = Some (match o_data2 o with Some d => pair_count counts d (Some r1) | None => D1R2 end) /\
    t_R1R2 t = (match o_R1R2 o with RCounter p => p | _ => pair_count counts r1 (Some r2) end) /\
    o_data1 o' = o_data1 o /\ o_data2 o' = o_data2 o /\ run counts natural_of periodic angular o' = (Err AttributeError, o').
Proof. exact run_landy_once. Qed.
Print Assumptions C351_randoms.
(* the estimate is that of C193 *)
Theorem C351_estimate : forall counts natural_of (cat_of : nat -> cat) periodic angular o d1 d2 r1 r2 given nat_of pick,
  o_data1 o = cat_of d1 -> o_data2 o = option_map cat_of d2 -> o_randoms1 o = Some (cat_of r1) -> o_randoms2 o = option_map cat_of r2 ->
  o_R1R2 o = match given with Some p => RCounter p | None => RNone end ->
  exists t, TpcfModel.run (fun a b => pair_count counts (cat_of a) (option_map cat_of b)) nat_of periodic pick d1 d2 (Some r1) r2 given = Ok t /\
    fst (run counts natural_of periodic angular o) = Ok tt /\ o_out (snd (run counts natural_of periodic angular o)) = Some t.
Proof. exact run_estimate. Qed.
Print Assumptions C351_estimate.

Definition z (n : Z) : Qc := Q2Qc (inject_Z n).
(* the total is that of pair_counters/base.py:51-61; there is one bin with some number of pairs *)
Definition sumw (l : list object) : Qc := fold_right Qcplus 0%Qc (map snd l).
Definition sumw2 (l : list object) : Qc := fold_right Qcplus 0%Qc (map (fun p => snd p * snd p)%Qc l).
Definition counts_ex (a : list object) (b : option (list object)) : pcounts :=
  match b with
  | None => {| c_total := (Q2Qc (1 # 2) * (sumw a * sumw a - sumw2 a))%Qc; c_bins := [(2%Z, z 2)] |}
  | Some b => {| c_total := (Q2Qc (1 # 2) * (sumw a * sumw b))%Qc; c_bins := [(3%Z, z 3)] |}
  end.
Definition natural_ex (p : pcounts) (n : nat) (m : option nat) : pcounts * list TpcfModel.num := (p, [Some (z (Z.of_nat n))]).
Definition at_ (x w : Z) : object := ((z x, z 5, z 5), z w).
Definition ten : v3 := (z 10, z 10, z 10).
Definition cat_ex (i : nat) (b : option bsize) : cat := {| a_id := i; a_objects := [at_ 1 1; at_ 5 2; at_ 10 1; at_ 6 1]; a_box := b |}.
Definition obj_ex (d1 : cat) (d2 r1 : option cat) : obj := {| o_data1 := d1; o_data2 := d2; o_randoms1 := r1; o_randoms2 := None; o_R1R2 := RNone; o_next := 9; o_out := None |}.
Example C351_ex : let o := obj_ex (cat_ex 1 (Some (BVec ten))) None None in
  boxed (o_data1 o) /\ map snd (a_objects (o_data1 (snd (run counts_ex natural_ex (Some true) true o)))) = [z 1; z 2; z 1] /\
  option_map t_corr (o_out (snd (run counts_ex natural_ex (Some true) true o))) = Some [Some (z 3)] /\
  option_map t_corr (o_out (snd (runs counts_ex natural_ex 4 (Some true) true o))) = Some [Some (z 3)] /\
  option_map t_corr (o_out (snd (run counts_ex natural_ex (Some true) false o))) = Some [Some (z 4)].
Proof.
  cbn zeta. split; [exists ten; split; [reflexivity|]; intros [|[|[|i]]] H; [reflexivity|reflexivity|reflexivity|lia]|].
  repeat split; vm_compute; reflexivity.
Qed.
Example C351_randoms_ex : let o := obj_ex (cat_ex 1 None) None (Some (cat_ex 2 None)) in
  (forall p, o_R1R2 o <> RStat p) /\ fst (run counts_ex natural_ex None false o) = Ok tt /\ fst (runs counts_ex natural_ex 2 None false o) = Err AttributeError.
Proof. cbn zeta. split; [discriminate|]. split; reflexivity. Qed.

(* ---- C352: run() may be called again ---- *)
Theorem C352_again_refuted : exists counts natural_of periodic o o', run counts natural_of periodic false o = (Ok tt, o') /\
  o_R1R2 o = RNone /\ fst (run counts natural_of periodic false o') = Err AttributeError.
Proof. exists counts_ex, natural_ex, None, (obj_ex (cat_ex 1 None) None (Some (cat_ex 2 None))). eexists. split; [reflexivity|]. split; reflexivity. Qed.
Print Assumptions C352_again_refuted.

(* ---- C353: BoxSize may be given as a keyword in all modes ---- *)
(* run() does not look at the keyword before the pair counter: only attrs of the catalogs count in angular mode *)
Theorem C353_angular_refuted : exists counts natural_of o, a_box (o_data1 o) = None /\
  fst (run counts natural_of (Some true) false o) = Ok tt /\ fst (run counts natural_of (Some true) true o) = Err KeyError.
Proof. exists counts_ex, natural_ex, (obj_ex (cat_ex 1 None) None None). repeat split. Qed.
Print Assumptions C353_angular_refuted.

(* ---- C354: data2 = data1 is the auto-correlation ---- *)
(* counts and totals as in pair_counters/base.py; in the other modes they are the same *)
Theorem C354_same_refuted : exists natural_of c o o' t t', o_out (snd (run counts_ex natural_of (Some true) false (obj_ex c (Some c) None))) = o_out (snd (run counts_ex natural_of (Some true) false (obj_ex c None None))) /\
  run counts_ex natural_of (Some true) true (obj_ex c None None) = (Ok tt, o) /\ run counts_ex natural_of (Some true) true (obj_ex c (Some c) None) = (Ok tt, o') /\
  o_out o = Some t /\ o_out o' = Some t' /\ c_total (t_D1D2 t) <> c_total (t_D1D2 t').
Proof.
  exists natural_ex, (cat_ex 1 (Some (BVec ten))). do 4 eexists. split; [reflexivity|]. split; [reflexivity|]. split; [reflexivity|]. split; [reflexivity|]. split; [reflexivity|].
  intros E. apply (f_equal this) in E. vm_compute in E. discriminate E.
Qed.
Print Assumptions C354_same_refuted.
