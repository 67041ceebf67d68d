(* What saving and reading a mesh is meant to do. *)
From Verif Require Import Base.
From Coq Require Import String.
From Verif Require Import SaveModel FldModel.
Local Open Scope nat_scope.
Local Notation length := List.length.

(* the modes of a real array that are stored: half of those along the last axis *)
Fixpoint halved (l : list nat) : list nat := match l with [] => [] | [n] => [n / 2 + 1] | n :: r => n :: halved r end.
Definition stored_shape (fourier : bool) (nmesh : list nat) : list nat := if fourier then halved nmesh else nmesh.
(* a field of pmesh: two or three axes, and as many values as cells (or modes) *)
Definition good_field {V J} (f : field V J) : Prop :=
  (length (fd_nmesh f) = 2 \/ length (fd_nmesh f) = 3) /\ length (fd_box f) = length (fd_nmesh f) /\
  length (fd_data f) = prodn (stored_shape (fd_fourier f) (fd_nmesh f)) /\ NoDup (map fst (fd_attrs f)).
(* the value of an attribute after reading: numbers and longer vectors as they were *)
Definition restored {J} (a : attr J) (v : value J) : Prop :=
  match a with
  | AStr s => v = VStr0 s
  | AArr [x] => v = VAttr (ANum x)
  | _ => v = VAttr a
  end.
(* the encoder can express the value, the decoder gives it back *)
Definition json_ok {J} (dumps : J -> option string) (loads : string -> res (attr J)) : Prop := forall j s, dumps j = Some s -> loads s = Ok (AObj j).
Definition reserved (k : string) : Prop := k = "ndarray.shape"%string \/ k = "BoxSize"%string \/ k = "Nmesh"%string.
(* the inverse transform of pmesh's transform *)
Definition fft_ok {R C} (r2c : list nat -> list R -> list C) (irfftn : list nat -> list C -> list R) (scale : nat -> R -> R) : Prop :=
  forall shape x, length x = prodn shape -> map (scale (prodn shape)) (irfftn shape (r2c shape x)) = x.
