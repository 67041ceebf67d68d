(* What is said about FKP catalogs and their power: the objects of a species are
   SurveyModel.obj with their weights and densities. *)
From Coq Require Import Ascii String QArith Qcanon.
From Verif Require Import Base Num NamesModel SurveyModel FkpModel.
Local Notation length := List.length.
Local Open Scope Qc_scope.

(* the objects whose columns two meshes read from a species *)
Definition reads (m1 m2 : mesh) (c : cat) (objs : list obj) : Prop :=
  c_size c = length objs /\
  sel_col c (h_sel m1) = Ok (map o_sel objs) /\
  num_col c (h_comp m1) = Ok (map (fun o => Fin (o_comp o)) objs) /\
  num_col c (h_fkp m1) = Ok (map (fun o => Fin (o_fkp1 o)) objs) /\
  num_col c (h_fkp m2) = Ok (map (fun o => Fin (o_fkp2 o)) objs) /\
  num_col c (h_nbar m2) = Ok (map (fun o => Fin (o_nbar o)) objs) /\
  exists p, vec_col c (h_pos m1) = Ok p /\ length p = length objs.

(* totals over the selected objects *)
Definition over (f : obj -> Qc) (objs : list obj) : Qc := qsum (map f (filter o_sel objs)).

(* the attribute is this number *)
Definition says (d : dict) (k : str) (x : Qc) : Prop := dget d k = Some (XNum (Fin x)).
(* the meta-data of the catalogs do not use these names *)
Definition unused (m : mesh) (l : list str) : Prop := forall k, In k l -> dget (h_attrs m) k = None.

(* painting to a mesh of n cells keeps the total *)
Definition conserves (paint : list Qc -> list nat -> str -> bool -> list (list Qc) -> list ext -> list ext) (n : list nat) : Prop :=
  forall box r i pos ms, length pos = length ms ->
  exists cs, paint box n r i pos (map Fin ms) = map Fin cs /\ length cs = fold_right Nat.mul 1%nat n /\ qsum cs = qsum ms.
