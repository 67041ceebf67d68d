From Coq Require Import Qround Sorting.Sorted.
From Verif Require Import Base Num SurveyModel.
Local Open Scope Qc_scope.

(* total weight of the objects with lo <= z < hi *)
Definition in_bin (lo hi z : Qc) : Prop := lo <= z /\ z < hi.
Definition weight_between (lo hi : Qc) (objs : list (Qc * Qc)) : Qc :=
  qsum (map (fun o => if Qclt_le_dec (fst o) lo then 0 else if Qclt_le_dec (fst o) hi then snd o else 0) objs).
Definition edge (edges : list Qc) (i : nat) : Qc := nth i edges 0.
Definition increasing (edges : list Qc) : Prop := StronglySorted Qcle edges.

(* extremes *)
Definition is_lowest (x : Qc) (l : list Qc) : Prop := In x l /\ forall y, In y l -> x <= y.
Definition is_highest (x : Qc) (l : list Qc) : Prop := In x l /\ forall y, In y l -> y <= x.

(* sums over all selected objects *)
Definition total (f : obj -> Qc) (l : list obj) : Qc := qsum (map (fun o => if o_sel o then f o else 0) l).

(* mean of a field *)
Definition mean (l : list Qc) : Qc := qsum l / nq (length l).
(* every particle is painted with total share one *)
Definition conserves (ncell : nat) (kern : vec -> nat -> Qc) : Prop :=
  forall x, qsum (map (kern x) (seq 0 ncell)) = 1.

(* ---- reconstruction ---- *)
(* the positions that are painted on one rank *)
Definition moved (s : option (list vec)) (pos : list vec) : list vec :=
  match s with Some s => map (fun p => vminus (fst p) (snd p)) (combine pos s) | None => pos end.
Definition everyone (cat : list (list vec)) (s : list (option (list vec))) : list vec :=
  flat_map (fun ps => moved (snd ps) (fst ps)) (combine cat s).
Definition matches (cat s : list (list vec)) : Prop := Forall2 (fun p d => length d = length p) cat s.
Section Rho.
Variables (ncell : nat) (kern : vec -> nat -> Qc).
(* the density contrast plus one: particles in units of the mean *)
Definition rho (ps : list vec) (k : nat) : Qc := qsum (map (fun x => kern x k) ps) / (nq (length ps) / nq ncell).

(* the fields of the three schemes; half of them on each side for LRR *)
Definition lgs_value (data ran s_d s_r : list (list vec)) (k : nat) : Qc := rho (everyone data (some_all s_d)) k - rho (everyone ran (some_all s_r)) k.
Definition lrr_value (data ran s_r : list (list vec)) (k : nat) : Qc :=
  rho (concat data) k - half * (rho (everyone ran (some_all (neg_s s_r))) k + rho (everyone ran (some_all s_r)) k).
Definition scheme_value (data ran s_d s_r : list (list vec)) (sch : scheme) (k : nat) : Qc :=
  match sch with
  | LGS => lgs_value data ran s_d s_r k
  | LRR => lrr_value data ran s_r k
  | LF2 => Q2Qc (3 # 7) * lgs_value data ran s_d s_r k + Q2Qc (4 # 7) * lrr_value data ran s_r k
  end.
End Rho.

(* lexicographic order of cells *)
Inductive lex_lt : cell -> cell -> Prop :=
| Lex_head : forall a b l m, (a < b)%Z -> lex_lt (a :: l) (b :: m)
| Lex_tail : forall a l m, lex_lt l m -> lex_lt (a :: l) (a :: m).
Definition valid_cell (n : list Z) (c : cell) : Prop := Forall2 (fun n c => (0 <= c < n)%Z) n c.
(* x lies in cell c on one axis with cell size h *)
Definition in_cell (h : Qc) (c : Z) (x : Qc) : Prop := zq c * h <= x /\ x < zq (c + 1) * h.
Definition lies_in (H : list Qc) (c : cell) (x : list Qc) : Prop := Forall2 (fun hc x => in_cell (fst hc) (snd hc) x) (combine H c) x.
Definition unit_numbers (d : nat) (u : list Qc) : Prop := length u = d /\ Forall (fun t => 0 <= t /\ t < 1) u.
(* the box with ns cells of size H *)
Definition box_of (ns : list Z) (H : list Qc) : list Qc := map (fun p => zq (fst p) * snd p) (combine ns H).
