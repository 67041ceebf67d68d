(* C343 - C346 *)
From Verif Require Import Base BaseProofs VisModel VisSpec VisProofs.
From Coq Require Import QArith Qcanon.
Local Open Scope nat_scope.

(* ---- C343: when SimulationBoxPairCount is made, and with which box ---- *)
Theorem C343_made : forall m first edges box periodic second Nmu pimax cols b,
  s_comm (chosen first second) = s_comm first -> has_sides first -> has_sides (chosen first second) ->
  SimulationBoxPairCount m first edges box periodic second Nmu pimax cols = Ok b <-> suitable m first edges box periodic second Nmu pimax cols b.
Proof. intros. apply counts_ok; assumption. Qed.
Print Assumptions C343_made.
Theorem C343_refused : forall m first edges box periodic second Nmu pimax cols,
  s_comm (chosen first second) = s_comm first -> has_sides first -> has_sides (chosen first second) ->
  (forall b, ~ suitable m first edges box periodic second Nmu pimax cols b) ->
  SimulationBoxPairCount m first edges box periodic second Nmu pimax cols = Err ValueError.
Proof.
  intros m first edges box periodic second Nmu pimax cols HC H1 H2 N. destruct (counts_ok m first edges box periodic second Nmu pimax cols HC H1 H2) as [A B].
  destruct (SimulationBoxPairCount m first edges box periodic second Nmu pimax cols) as [b|e]; [exfalso; apply (N b), A; reflexivity|rewrite (B e eq_refl); reflexivity].
Qed.
Print Assumptions C343_refused.
Theorem C343_comm : forall m first edges box periodic second Nmu pimax cols, s_comm (chosen first second) <> s_comm first ->
  SimulationBoxPairCount m first edges box periodic second Nmu pimax cols = Err AssertionError.
Proof.
  intros m first edges box periodic second Nmu pimax cols H. unfold SimulationBoxPairCount, verify. fold (chosen first second). destruct (Nat.eqb_spec (s_comm (chosen first second)) (s_comm first)); [contradiction|reflexivity].
Qed.
Print Assumptions C343_comm.

Definition q (n : Z) : Qc := Q2Qc (inject_Z n).
Definition cube (n : Z) : list Qc := [q n; q n; q n].
Definition boxed (x : option size) : source := {| s_comm := 0; s_cols := [0; 1; 2]; s_box := x |}.
Example C343_ex :
  SimulationBoxPairCount MProjected (boxed (Some (Vec (cube 100)))) [q 1; q 10; q 50] None true (Some (boxed (Some (Vec (cube 100))))) None (Some (q 40)) [0; 1] = Ok (cube 100) /\
  SimulationBoxPairCount M1d (boxed None) [q 1; q 10] (Some (Num (q 100))) true None None None [0; 1] = Ok (cube 100) /\
  SimulationBoxPairCount M1d (boxed None) [q 1; q 51] (Some (Num (q 100))) true None None None [0; 1] = Err ValueError /\
  SimulationBoxPairCount M1d (boxed None) [q 1; q 51] (Some (Num (q 100))) false None None None [0; 1] = Ok (cube 100) /\
  SimulationBoxPairCount M1d (boxed (Some (Vec (cube 90)))) [q 1; q 10] (Some (Num (q 100))) true None None None [0; 1] = Err ValueError /\
  SimulationBoxPairCount M1d (boxed None) [q 1; q 10] (Some (Num (q 100))) true None None None [0; 5] = Err ValueError.
Proof. repeat split; vm_compute; reflexivity. Qed.
Example C343_suitable_ex : suitable M1d (boxed None) [q 1; q 10] (Some (Num (q 100))) true None None None [0; 1] (cube 100).
Proof. apply C343_made; [reflexivity|intros x H; discriminate H|intros x H; discriminate H|vm_compute; reflexivity]. Qed.

(* ---- C344: a catalog with another BoxSize than the one in use is refused ---- *)
Theorem C344_mismatch_refuted :
  (exists first second box b x, s_box second = Some x /\ ~ stands x b /\ has_sides first /\ has_sides second /\
    SimulationBoxPairCount M1d first [q 1; q 10] box true (Some second) None None [0; 1] = Ok b) /\
  (exists first second box b x, s_box first = Some x /\ ~ stands x b /\ has_sides first /\ has_sides second /\
    SimulationBoxPairCount M1d first [q 1; q 10] box true (Some second) None None [0; 1] = Ok b).
Proof.
  assert (H : forall n, has_sides (boxed (Some (Vec (cube n))))) by (intros n x E; injection E as <-; exists (cube n); split; reflexivity).
  assert (H0 : has_sides (boxed None)) by (intros x E; discriminate E).
  assert (D : ~ stands (Vec (cube 200)) (cube 100)) by (cbn; intros [[_ E]|(r & E & _)]; discriminate E).
  split.
  - exists (boxed None), (boxed (Some (Vec (cube 200)))), (Some (Num (q 100))), (cube 100), (Vec (cube 200)). repeat (split; [solve [auto]|]). vm_compute. reflexivity.
  - exists (boxed (Some (Vec (cube 200)))), (boxed None), (Some (Num (q 100))), (cube 100), (Vec (cube 200)). repeat (split; [solve [auto]|]). vm_compute. reflexivity.
Qed.
Print Assumptions C344_mismatch_refuted.

(* ---- C345: a catalog whose BoxSize is a number can be counted ---- *)
Theorem C345_number_refuted : exists first b, s_box first = Some (Num b) /\ (0 < b)%Qc /\
  SimulationBoxPairCount M1d (boxed (Some (Vec [b; b; b]))) [q 1; q 10] None true None None None [0; 1] = Ok [b; b; b] /\
  SimulationBoxPairCount M1d first [q 1; q 10] None true None None None [0; 1] = Err TypeError /\
  SimulationBoxPairCount M1d first [q 1; q 10] (Some (Num b)) true None None None [0; 1] = Err TypeError.
Proof. exists (boxed (Some (Num (q 100)))), (q 100). repeat split; vm_compute; reflexivity. Qed.
Print Assumptions C345_number_refuted.

(* ---- C346: the BoxSize in attrs of either catalog is enough ---- *)
Theorem C346_either_refuted : exists first second b, s_box second = Some (Vec b) /\ length b = 3 /\
  SimulationBoxPairCount M1d second [q 1; q 10] None true (Some first) None None [0; 1] = Ok b /\
  SimulationBoxPairCount M1d first [q 1; q 10] None true (Some second) None None [0; 1] = Err ValueError.
Proof. exists (boxed None), (boxed (Some (Vec (cube 100)))), (cube 100). repeat split; vm_compute; reflexivity. Qed.
Print Assumptions C346_either_refuted.
