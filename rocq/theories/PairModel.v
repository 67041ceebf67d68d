(* Model of the pair counters in simulation boxes: nbodykit/algorithms/pair_counters
   (base.py, domain.py, simbox.py, corrfunc/base.py, corrfunc/theory.py) and of split_size_3d
   (nbodykit/utils.py 84-112).  Exact rationals stand for floats.  Corrfunc, GridND of pmesh
   and the square root are function arguments. *)
From Verif Require Import Base Num BatchModel FofModel FofCmModel.
From Coq Require Import Ascii.
Local Open Scope Z_scope.

(* ------------------------------------------------------------------ *)
(* split_size_3d, utils.py 84-112                                      *)

(* while a > 1: if s % a == 0: s = s // a; break; a = a - 1 *)
Fixpoint div_loop (fuel : nat) (a s : Z) : res (Z * Z) :=
  match fuel with
  | O => Err OutOfFuel
  | S fuel => if 1 <? a then if s mod a =? 0 then Ok (a, s / a) else div_loop fuel (a - 1) s else Ok (a, s)
  end.
(* root3 s = int(s ** 0.3333333), root2 s = int(s ** 0.5) *)
Definition split_size_3d (root3 root2 : Z -> Z) (s : Z) : res (Z * Z * Z) :=
  let a := root3 s + 1 in                                                             (* 99 *)
  let! r := div_loop (S (Z.to_nat a)) a s in let '(a, s) := r in                      (* 100-104 *)
  let b := root2 s + 1 in                                                             (* 105 *)
  let! r := div_loop (S (Z.to_nat b)) b s in let '(b, s) := r in                      (* 106-110 *)
  Ok (a, b, s).

(* ------------------------------------------------------------------ *)
(* the line of sight, simbox.py 93-103                                  *)

Fixpoint is_prefix (s l : list ascii) : bool :=
  match s, l with
  | [], _ => true
  | a :: s, b :: l => Ascii.eqb a b && is_prefix s l
  | _ :: _, [] => false
  end.
(* l.index(s); None when s is not in l *)
Fixpoint str_index (s l : list ascii) : option nat :=
  if is_prefix s l then Some O else match l with [] => None | _ :: l => option_map S (str_index s l) end.
Definition xyz : list ascii := ["x"; "y"; "z"]%char.
(* LosNum: a number that is not a Python int, such as a float or a numpy integer *)
Inductive los_arg := LosStr (s : list ascii) | LosInt (z : Z) | LosNum (x : Qc).
Definition check_los (los : los_arg) : res nat :=
  let! los := match los with
              | LosStr s => match str_index s xyz with Some i => Ok (LosInt (Z.of_nat i)) | None => Err ValueError end
              | _ => Ok los
              end in
  let los := match los with LosInt z => if z <? 0 then LosInt (z + 3) else los | _ => los end in
  match los with
  | LosInt z => if (z =? 0) || (z =? 1) || (z =? 2) then Ok (Z.to_nat z) else Err ValueError
  | LosNum x => if Qc_eq_dec x 0 then Ok 0%nat else if Qc_eq_dec x 1 then Ok 1%nat else if Qc_eq_dec x (zq 2) then Ok 2%nat else Err ValueError
  | LosStr _ => Err ValueError
  end.
(* simbox.py 159 *)
Definition axes_order (los : nat) : list nat := filter (fun i => negb (Nat.eqb i los)) [0; 1; 2]%nat ++ [los].

(* ------------------------------------------------------------------ *)
(* positions                                                            *)

Definition v3 := (Qc * Qc * Qc)%type.
Definition coord (p : v3) (i : nat) : Qc := match i with O => fst (fst p) | S O => snd (fst p) | _ => snd p end.
(* p[:,axes_order] *)
Definition reorder (los : nat) (p : v3) : v3 :=
  match axes_order los with [a; b; c] => (coord p a, coord p b, coord p c) | _ => p end.
Definition vmod (p L : v3) : v3 := (qmod (coord p 0) (coord L 0), qmod (coord p 1) (coord L 1), qmod (coord p 2) (coord L 2)).
Definition qmax (a b : Qc) : Qc := if Qclt_le_dec a b then b else a.
Definition qmin (a b : Qc) : Qc := if Qclt_le_dec b a then b else a.
Definition vmax (p : v3) : Qc := qmax (qmax (coord p 0) (coord p 1)) (coord p 2).
Definition vmin (p : v3) : Qc := qmin (qmin (coord p 0) (coord p 1)) (coord p 2).

(* shift_to_box_center, simbox.py 227-266; the positions of all ranks together, for which
   get_data_bounds gives the bounds (C50), and inf/-inf when there are none *)
Definition all_axes (f : nat -> bool) : bool := f 0%nat && f 1%nat && f 2%nat.
Definition all_gt (i : nat) (pos : list v3) (x : Qc) : bool :=                          (* pos_min[i] > x *)
  match map (fun p => coord p i) pos with [] => true | a :: l => if Qclt_le_dec x (fold_left qmin l a) then true else false end.
Definition all_lt (i : nat) (pos : list v3) (x : Qc) : bool :=                          (* pos_max[i] < x *)
  match map (fun p => coord p i) pos with [] => true | a :: l => if Qclt_le_dec (fold_left qmax l a) x then true else false end.
Definition vsub (p q : v3) : v3 := (coord p 0 - coord q 0, coord p 1 - coord q 1, coord p 2 - coord q 2)%Qc.
Definition vscale (c : Qc) (p : v3) : v3 := (c * coord p 0, c * coord p 1, c * coord p 2)%Qc.
Definition shift_to_box_center (pos : list v3) (L : v3) : res (list v3) :=
  if all_axes (fun i => all_gt i pos 0) && all_axes (fun i => all_lt i pos (coord L i)) then    (* 258-259 *)
    Ok (map (fun p => vsub p (vscale half L)) pos)
  else if all_axes (fun i => all_gt i pos (- half * coord L i)%Qc) && all_axes (fun i => all_lt i pos (half * coord L i)%Qc) then
    Ok pos                                                                                     (* 260-261 *)
  else Err ValueError.                                                                         (* 263 *)

(* ------------------------------------------------------------------ *)
(* argument checks                                                      *)

Inductive pmode := M1d | M2d | Mproj | Mang.
Definition lmaxq (l : list Qc) : res Qc := match l with [] => Err ValueError | x :: l => Ok (fold_left qmax l x) end.
Definition lminq (l : list Qc) : res Qc := match l with [] => Err ValueError | x :: l => Ok (fold_left qmin l x) end.
Definition qgt (a b : Qc) : bool := if Qclt_le_dec b a then true else false.
(* PairCountBase.__init__, base.py 13-33; the mode is one of the four *)
Definition paircount_check (mode : pmode) (edges : list Qc) (Nmu : option nat) (pimax : option Qc) : res unit :=
  let! m := lminq edges in
  if negb (qgt m 0) then Err ValueError else                                           (* 19-21 *)
  match mode, Nmu, pimax with
  | M2d, Some _, None => Ok tt
  | (M1d | Mang), None, None => Ok tt
  | Mproj, None, Some p => if qgt 1 p then Err ValueError else Ok tt                   (* 32-33 *)
  | _, _, _ => Err ValueError                                                          (* 24-31 *)
  end.
(* simbox.py 120-124 *)
Definition box_check (mode : pmode) (edges : list Qc) (pimax : option Qc) (periodic : bool) (L : v3) : res unit :=
  match mode with
  | Mang => Ok tt
  | _ =>
    if periodic then
      let! m := lmaxq edges in
      if qgt m (half * vmin L)%Qc then Err ValueError
      else match mode, pimax with
           | Mproj, Some p => if qgt p (half * vmin L)%Qc then Err ValueError else Ok tt
           | _, _ => Ok tt
           end
    else Ok tt
  end.
(* total_wnpairs, base.py 49-60; the weights of all ranks *)
Definition total_auto (w : list (list Qc)) : Qc :=
  let wpairs1 := qsum (map qsum w) in let wpairs2 := qsum (map (fun l => qsum (map (fun x => (x * x)%Qc) l)) w) in
  (half * (wpairs1 * wpairs1 - wpairs2))%Qc.
Definition total_cross (w1 w2 : list (list Qc)) : Qc := (half * qsum (map qsum w1) * qsum (map qsum w2))%Qc.

(* ------------------------------------------------------------------ *)
(* CorrfuncResult and MPICorrfuncCallable, corrfunc/base.py             *)

(* one bin: npairs, the average separation (savg, ravg or rpavg) and weightavg *)
Record pc_bin := { pb_n : Z; pb_sep : Qc; pb_w : Qc }.
Definition add_col (n1 : Z) (x1 : Qc) (n2 : Z) (x2 : Qc) : Qc :=
  let d := (x1 * zq n1 + x2 * zq n2)%Qc in                                              (* 59 *)
  if 0 <? n1 + n2 then (d / zq (n1 + n2))%Qc else d.                                    (* 65-68 *)
Definition add_bin (a b : pc_bin) : pc_bin :=
  {| pb_n := pb_n a + pb_n b;                                                           (* 62 *)
     pb_sep := add_col (pb_n a) (pb_sep a) (pb_n b) (pb_sep b);
     pb_w := add_col (pb_n a) (pb_w a) (pb_n b) (pb_w b) |}.
Definition add_result (a b : list pc_bin) : list pc_bin := zipr add_bin a b.

(* comm.allreduce of Python objects adds the results of the ranks in some grouping and order *)
Inductive grouping := GRank (r : nat) | GPlus (a b : grouping).
Fixpoint leaves (g : grouping) : list nat := match g with GRank r => [r] | GPlus a b => leaves a ++ leaves b end.
Fixpoint reduce (g : grouping) (rs : list (list pc_bin)) : res (list pc_bin) :=
  match g with
  | GRank r => match nth_error rs r with Some x => Ok x | None => Err OutOfContract end
  | GPlus a b => let! x := reduce a rs in let! y := reduce b rs in Ok (add_result x y)
  end.
Record out_bin := { o_sep : Qc; o_n : Z; o_w : Qc }.
(* 165-169 *)
Definition finish_bin (x : pc_bin) : out_bin :=
  {| o_sep := pb_sep x; o_n := pb_n x; o_w := if pb_n x =? 0 then 0%Qc else (pb_w x * zq (pb_n x))%Qc |}.

Section Call.
Variable P : Type.
Variable corr : list P -> list P -> list pc_bin.     (* the Corrfunc function, as used by __call__ of corrfunc/theory.py *)
Definition chunks_of (show_progress : bool) : nat := if show_progress then 10%nat else 1%nat.   (* 140 *)
(* 143-151: on one rank *)
Definition run_rank (show_progress : bool) (pos1 pos2 : list P) : res (list pc_bin) :=
  match map (fun chunk => corr chunk pos2) (array_split pos1 (chunks_of show_progress)) with
  | [] => Err OutOfContract
  | r :: rs => Ok (fold_left add_result rs r)
  end.
Definition corr_call (g : grouping) (show_progress : bool) (data : list (list P * list P)) : res (list out_bin) :=
  let! rs := rall (map (fun d => run_rank show_progress (fst d) (snd d)) data) in
  let! pc := reduce g rs in                                                            (* 158 *)
  Ok (map finish_bin pc).
End Call.

(* ------------------------------------------------------------------ *)
(* decompose_box_data, domain.py 46-133                                 *)

Definition obj := (v3 * Qc)%type.                        (* position and weight *)
(* layout.exchange: every object goes to the ranks in its list of targets *)
Definition exchange_to {A} (targets : A -> list nat) (parts : list (list A)) (r : nat) : list A :=
  flat_map (fun x => map (fun _ => x) (filter (Nat.eqb r) (targets x))) (concat parts).
Section Box.
Variable size : nat.
Variable targets : Qc -> v3 -> list nat.                 (* GridND.decompose(pos, smoothing) *)
Variable sqrt : Qc -> Qc.
Definition enforce (periodic : bool) (L : v3) (parts : list (list obj)) : list (list obj) :=
  if periodic then map (map (fun x => (vmod (fst x) L, snd x))) parts else parts.       (* 86-88, 94-96 *)
Definition decompose_box (periodic : bool) (L : v3) (smoothing : Qc) (first : list (list obj)) (second : option (list (list obj)))
  : list (list obj * list obj) :=
  let pos1 := enforce periodic L first in
  let pos2 := match second with Some s => enforce periodic L s | None => pos1 end in    (* 93-102 *)
  map (fun r =>
    (exchange_to (fun x => targets 0 (fst x)) pos1 r,                                   (* 113-115 *)
     if qgt smoothing (vmax L * Q2Qc (1 # 4))%Qc then concat pos2                       (* 118-120 *)
     else exchange_to (fun x => targets smoothing (fst x)) pos2 r)) (seq 0 size).       (* 121-124 *)
(* simbox.py 161-165; the angular mode is not modelled *)
Definition smoothing_of (mode : pmode) (edges : list Qc) (pimax : option Qc) : res Qc :=
  let! m := lmaxq edges in
  match mode, pimax with
  | (M1d | M2d), _ => Ok m
  | Mproj, Some p => Ok (sqrt (m * m + p * p)%Qc)
  | _, _ => Err OutOfContract
  end.
Variable corr : list obj -> list obj -> list pc_bin.
(* SimulationBoxPairCount(...).pairs, simbox.py 89-225 *)
Definition simbox_pairs (g : grouping) (mode : pmode) (edges : list Qc) (Nmu : option nat) (pimax : option Qc) (los : los_arg)
  (periodic show_progress : bool) (L : v3) (first : list (list obj)) (second : option (list (list obj))) : res (list out_bin) :=
  let! los := check_los los in
  let! _ := paircount_check mode edges Nmu pimax in
  let! _ := box_check mode edges pimax periodic L in
  let! smoothing := smoothing_of mode edges pimax in
  let data := decompose_box periodic L smoothing first second in
  let turn := map (fun x : obj => (reorder los (fst x), snd x)) in                     (* 173-174 *)
  let data := map (fun d => (turn (fst d), turn (snd d))) data in
  if periodic && negb (if Qc_eq_dec (coord L 1) (coord L 0) then if Qc_eq_dec (coord L 2) (coord L 0) then true else false else false)
  then Err RuntimeError                                                                (* theory.py 28-30, NotImplementedError *)
  else corr_call obj corr g show_progress data.
End Box.

(* ------------------------------------------------------------------ *)
(* paircount_tpcf/estimators.py                                         *)

(* LandySzalayEstimator, 199-219, one bin; None is nan *)
Definition landy_szalay (totDD totDR totRD totRR DD DR RD : Qc) (nRR : Z) (RR : Qc) : option Qc :=
  let fDD := (totRR / totDD)%Qc in let fDR := (totRR / totDR)%Qc in let fRD := (totRR / totRD)%Qc in
  if 0 <? nRR then Some ((fDD * DD - fDR * DR - fRD * RD) / RR + 1)%Qc else None.
(* NaturalEstimator, 240-259, one bin with filling factor f; N2 = None for an auto-correlation *)
Definition analytic_pairs (N1 : Z) (N2 : option Z) (f : Qc) : Qc * Qc :=                (* 112-117: R1R2, total_wnpairs *)
  match N2 with
  | None => (zq N1 * zq N1 * f, zq N1 * (zq N1 - 1) * half)%Qc
  | Some N2 => (zq N1 * zq N2 * f, zq N1 * zq N2 * half)%Qc
  end.
Definition natural (N1 : Z) (N2 : option Z) (f totDD DD : Qc) : Qc :=
  let '(RR, totRR) := analytic_pairs N1 N2 f in
  let fDD := (totRR / totDD)%Qc in (DD * fDD / RR - 1)%Qc.
