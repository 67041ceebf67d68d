(* Model of algorithms/fftpower.py ProjectedFFTPower: the arguments axes, dk and kmin of __init__ (398-413) and run (438-493),
   over the real numbers.

   The fields are those of the two meshes on the cells of the mesh (all ranks together).  A mode or cell of the projected mesh
   is the list of its indices, in the order of the axes.  External: Field.preview(Nmesh, axes) sums the field over the other
   axes and keeps the axes in the order given; numpy.fft.rfftn is the plain sum over the cells, without the modes whose last
   index is above n / 2.  Negative axes are not modelled. *)
From Verif Require Import Base.
From Coq Require Import Reals.
From Verif Require Import RandModel ThreeModel SkyModel ConvModel MockModel DftModel UniqModel.
Local Open Scope R_scope.
Local Notation length := List.length.

Definition ax (a : nat) (x : mode) : nat := let '(i, j, k) := x in match a with 0%nat => i | 1%nat => j | _ => k end.
Definition len (a : nat) (L : point) : R := let '(x, y, z) := L in match a with 0%nat => x | 1%nat => y | _ => z end.
Fixpoint grid (sizes : list nat) : list (list nat) :=
  match sizes with [] => [[]] | n :: r => flat_map (fun i => map (cons i) (grid r)) (seq 0 n) end.
Fixpoint eql (a b : list nat) : bool := match a, b with [], [] => true | x :: a, y :: b => (x =? y)%nat && eql a b | _, _ => false end.
(* c1.preview(Nmesh, axes), 439 *)
Definition preview (N : mode) (axes : list nat) (f : mode -> R) (c : list nat) : R :=
  rsum (map f (filter (fun x => eql (map (fun a => ax a x) axes) c) (cells N))).
(* numpy.fft.rfftn *)
Fixpoint turn (sizes m c : list nat) : R :=
  match sizes, m, c with n :: s, i :: m, a :: c => INR (i * a) / INR n + turn s m c | _, _, _ => 0 end.
Definition rfftn (sizes : list nat) (r : list nat -> R) (m : list nat) : comp :=
  (rsum (map (fun c => r c * cos (2 * PI * turn sizes m c)) (grid sizes)), - rsum (map (fun c => r c * sin (2 * PI * turn sizes m c)) (grid sizes))).
(* the shape of its result *)
Definition half (sizes : list nat) : list nat := removelast sizes ++ [last sizes 0 / 2 + 1]%nat.

Section Run.
Variables (N : mode) (L : point) (axes : list nat) (f g : mode -> R).
Definition sizes : list nat := map (fun a => ax a N) axes.
(* 443, 451: / Nmesh.prod() *)
Definition ck (h : mode -> R) (m : list nat) : comp := cscale (/ ncell N) (rfftn sizes (preview N axes h) m).
(* 453-455 *)
Definition pk (m : list nat) : comp := if forallb (fun i => (i =? 0)%nat) m then (0, 0) else cmul (ck f m) (conj (ck g m)).
(* 461-463 *)
Definition kmag (m : list nat) : R :=
  sqrt (rsum (map (fun ai => kaxis (ax (fst ai) N) (len (fst ai) L) (snd ai) * kaxis (ax (fst ai) N) (len (fst ai) L) (snd ai)) (combine axes m))).
(* 464-467 *)
Definition W (m : list nat) : R :=
  if (last m 0 =? last sizes 0 / 2)%nat then 1 else if (last m 0 =? 0)%nat then 1 else 2.
(* 469-472 *)
Definition kedges (dk kmin : R) : list R :=
  arange kmin (PI * rmin (map INR sizes) / fold_left Rmax (tl (map (fun a => len a L) axes)) (hd 0 (map (fun a => len a L) axes)) + dk / 2) dk.
Definition digitize (edges : list R) (x : R) : nat := length (filter (fun e => if Rle_dec e x then true else false) edges).
(* 474-482: bincount of the modes *)
Definition bincount (edges : list R) (w : list nat -> R) (b : nat) : R :=
  rsum (map w (filter (fun m => (digitize edges (kmag m) =? b)%nat) (grid (half sizes)))).
(* 484-490; 0/0 is not a number *)
Record bin := { b_k : option R; b_power : option comp; b_modes : R }.
Record result := { edges : list R; bins : list bin }.
Definition run (dk kmin : R) : res result :=
  let e := kedges dk kmin in
  let xsum := bincount e (fun m => W m * kmag m) in
  let re := bincount e (fun m => W m * fst (pk m)) in
  let im := bincount e (fun m => W m * snd (pk m)) in
  let nsum := bincount e W in
  let area := fold_left Rmult (map (fun a => len a L) axes) 1 in
  match e with
  | [] => Err ValueError                                        (* numpy.empty(-1) *)
  | _ =>
      Ok {| edges := e;
            bins := map (fun b => let n := nsum (S b) in
                      {| b_k := if ceq0 n then None else Some (xsum (S b) / n);
                         b_power := if ceq0 n then None else Some (re (S b) / n * area, im (S b) / n * area);
                         b_modes := n |}) (seq 0 (length e - 1)) |}
  end.
End Run.
(* __init__, 402-413; the axes are a sequence or a number *)
Inductive axes_arg := Sequence (l : list nat) | Number (a : nat).
Definition ProjectedFFTPower (N : mode) (L : point) (axes : axes_arg) (dk : option R) (kmin : R) (f : mode -> R) (g : option (mode -> R)) : res result :=
  match axes with
  | Number _ => Err TypeError                                   (* len(axes) *)
  | Sequence l =>
      if negb ((length l =? 1) || (length l =? 2))%nat then Err AssertionError
      else if existsb (fun a => (3 <=? a)%nat) l then Err IndexError
      else
        let dk := match dk with Some d => d | None => 2 * PI / Rmin (Rmin (len 0 L) (len 1 L)) (len 2 L) end in
        if ceq0 dk then Err OutOfContract
        else run N L l f (match g with Some g => g | None => f end) dk kmin
  end.
