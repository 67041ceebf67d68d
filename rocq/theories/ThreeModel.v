(* Model of nbodykit/algorithms/threeptcf.py, Base3PCF._run (35-150), over the real numbers of
   the standard library.  Arrays are lists or functions of the index.

   External: kdcount's enumeration of the pairs of one primary (the bunches handed to the
   callback), the spherical harmonics generated by sympy (YlmCache), the domain
   decomposition (objects of every rank), numpy.searchsorted for sorted edges, comm. *)
From Verif Require Import Base.
From Coq Require Import Reals.
From Verif Require Import RandModel.
Local Open Scope nat_scope.

Notation point := (R * R * R)%type.
Notation comp := (R * R)%type.                             (* complex *)
Definition rltb (a b : R) : bool := if Rlt_dec a b then true else false.
Definition rleb (a b : R) : bool := if Rle_dec a b then true else false.

Section Run.
Variable edges : list R.
Variable poles : list nat.
Variable box : option point.                               (* boxsize; None: not periodic *)
Variable Y : nat -> nat -> point -> comp.                  (* Ylm_cache, of a unit vector *)
Definition nbins : nat := length edges - 1.

(* 71-74 *)
Definition wrap (L x : R) : R :=
  let x := if rltb (L * / 2) x then (x - L)%R else x in
  if rleb x (- L * / 2) then (x + L)%R else x.
Definition minus3 (s p : point) : point := let '(s0, s1, s2) := s in let '(p0, p1, p2) := p in (s0 - p0, s1 - p1, s2 - p2)%R.
Definition dpos (s p : point) : point :=
  let '(x, y, z) := minus3 s p in
  match box with None => (x, y, z) | Some (L0, L1, L2) => (wrap L0 x, wrap L1 y, wrap L2 z) end.
Definition over (d : point) (r : R) : point := let '(x, y, z) := d in (x / r, y / r, z / r)%R.
(* 78: searchsorted(edges, r, side='left') *)
Definition dig (r : R) : nat := length (filter (fun e => rltb e r) edges).
(* bincount(...)[1:-1][a] *)
Definition binned (dw : list (nat * R)) (a : nat) : R := rsum (map snd (filter (fun p => fst p =? S a) dw)).

(* the dictionaries alms, walms *)
Notation dict := (list ((nat * nat) * (list comp * list comp))).
Definition keyb (k k' : nat * nat) : bool := (fst k =? fst k') && (snd k =? snd k').
Fixpoint update (d : dict) (k : nat * nat) (dflt : list comp * list comp) (f : list comp * list comp -> list comp * list comp) : dict :=
  match d with
  | [] => [(k, f dflt)]
  | (k', v) :: d => if keyb k k' then (k', f v) :: d else (k', v) :: update d k dflt f
  end.
Definition cadd (a b : comp) : comp := (fst a + fst b, snd a + snd b)%R.
Definition vadd (a b : list comp) : list comp := map (fun p => cadd (fst p) (snd p)) (combine a b).
Definition zeros : list comp := map (fun _ => (0, 0)%R) (seq 0 nbins).
Definition lms : list (nat * nat) := flat_map (fun l => map (fun m => (l, m)) (seq 0 (S l))) poles.
(* 62-102: one call of the callback; a pair is (r, i) *)
Definition callback (p : point) (w0 : R) (sec : list (point * R)) (d : dict) (bunch : list (R * nat)) : dict :=
  let pairs := filter (fun ri => rltb 0 (fst ri)) bunch in
  let Ylm lm ri := Y (fst lm) (snd lm) (over (dpos (fst (nth (snd ri) sec (0, 0, 0, 0)%R)) p) (fst ri)) in
  let ws ri := snd (nth (snd ri) sec (0, 0, 0, 0)%R) in
  fold_left (fun d lm =>
    let r1 := binned (map (fun ri => (dig (fst ri), (fst (Ylm lm ri) * ws ri)%R)) pairs) in
    let i1 := binned (map (fun ri => (dig (fst ri), (snd (Ylm lm ri) * ws ri)%R)) pairs) in
    let add v := vadd v (map (fun a => (r1 a, if snd lm =? 0 then 0%R else i1 a)) (seq 0 nbins)) in
    let wadd v := vadd v (map (fun a => (w0 * r1 a, if snd lm =? 0 then 0%R else w0 * i1 a)%R) (seq 0 nbins)) in
    update d lm (zeros, zeros) (fun v => (add (fst v), wadd (snd v)))) lms d.

(* YlmCache.ell_to_iell *)
Definition iell (l : nat) : nat := fold_left (fun acc p => if snd p =? l then fst p else acc) (combine (seq 0 (length poles)) poles) 0.
Notation zeta := (nat -> nat -> nat -> R).
(* 122-130 *)
Definition combine_alm (z : zeta) (e : (nat * nat) * (list comp * list comp)) : zeta :=
  let '((l, m), (alm, walm)) := e in
  let outer a b := (fst (nth a walm (0, 0)%R) * fst (nth b alm (0, 0)%R) + snd (nth a walm (0, 0)%R) * snd (nth b alm (0, 0)%R))%R in   (* real part of walm conj(alm) *)
  fun q a b => (z q a b + (if q =? iell l then (if m =? 0 then outer a b else outer a b + outer b a) else 0))%R.

Record rank := { prim : list (point * R); sec : list (point * R); bunches : list (list (list (R * nat))) }.
(* 109-130; `iprim % chunk_size` on the rank with the largest load *)
Fixpoint primaries (largest : bool) (chunk : nat) (sc : list (point * R)) (z : zeta) (l : list ((point * R) * list (list (R * nat)))) : res zeta :=
  match l with
  | [] => Ok z
  | ((p, w0), bs) :: l =>
      let d := fold_left (callback p w0 sc) bs [] in
      if largest && (chunk =? 0) then Err ZeroDivisionError
      else primaries largest chunk sc (fold_left combine_alm d z) l
  end.
Definition maxload (ranks : list rank) : nat := fold_right Nat.max 0 (map (fun k => length (prim k)) ranks).
(* numpy.argmax: the first *)
Fixpoint argmax (m : nat) (l : list nat) : nat := match l with [] => 0 | x :: l => if x =? m then 0 else S (argmax m l) end.
Definition run (ranks : list rank) : res (list (list (list R))) :=
  match poles with
  | [] => Err ValueError                                   (* max of an empty list *)
  | _ =>
      let big := argmax (maxload ranks) (map (fun k => length (prim k)) ranks) in
      let! zs := rall (map (fun ik => primaries (fst ik =? big) (maxload ranks / 10) (sec (snd ik)) (fun _ _ _ => 0%R) (combine (prim (snd ik)) (bunches (snd ik)))) (combine (seq 0 (length ranks)) ranks)) in
      if existsb (fun l => 1 <? count_occ Nat.eq_dec poles l) poles then Err ValueError      (* two fields corr_l *)
      else Ok (map (fun q => map (fun a => map (fun b => (rsum (map (fun z : zeta => z q a b) zs) / (4 * PI))%R) (seq 0 nbins)) (seq 0 nbins)) (seq 0 (length poles)))
  end.
End Run.
