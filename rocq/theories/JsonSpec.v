From Coq Require Import String.
From Verif Require Import Base Num JsonModel.
Local Open Scope string_scope.
Local Open Scope list_scope.
Local Open Scope nat_scope.

(* What can be saved and restored exactly. *)
Definition finite_imag (s : scalar) : Prop := match s with SComplex _ im => exists q, im = Fin q | _ => True end.
Definition reserved : list string := ["__dtype__"; "__unit__"; "__cosmo__"; "__complex__"].
(* zero extent only along the last axis *)
Definition shape_ok (shape : list nat) : Prop := Forall (fun n => 0 < n) (removelast shape).

Section Spec.
(* numpy stores a value s in an array of type t unchanged *)
Variable cast : string -> scalar -> res scalar.
Definition holds (t : string) (s : scalar) : Prop := cast t s = Ok s /\ finite_imag s.
Definition entry_ok (dt : dtype) (e : entry) : Prop :=
  match dt, e with
  | Simple t, One s => holds t s
  | Fields fs, Row r => Forall2 (fun f s => holds (snd f) s) fs r
  | _, _ => False
  end.
Inductive restorable : pyval -> Prop :=
| R_none : restorable PNone
| R_scalar : forall s, finite_imag s -> restorable (PScalar s)
| R_list : forall l, Forall restorable l -> restorable (PList l)
| R_dict : forall d, (forall k v, In (k, v) d -> restorable v /\ exists s, k = KStr s /\ ~ In s reserved) -> NoDup (map fst d) -> restorable (PDict d)
| R_array : forall dt shape data, shape_ok shape -> length data = prod shape -> Forall (entry_ok dt) data -> restorable (PArray dt shape data)
| R_quantity : forall unit t shape data, In t ["<f4"; "<f8"; "<c8"; "<c16"] -> shape <> [] -> shape_ok shape ->
    length data = prod shape -> Forall (holds t) data -> restorable (PQuantity unit t shape data)
| R_quantity_float : forall unit x, restorable (PQuantity unit "<f8" [] [SFloat x])
| R_quantity_complex : forall unit re q, restorable (PQuantity unit "<c16" [] [SComplex re (Fin q)])
| R_cosmo : forall d, (forall k v, In (k, v) d -> restorable v /\ exists s, k = KStr s /\ ~ In s reserved) -> NoDup (map fst d) -> restorable (PCosmo d).
End Spec.
