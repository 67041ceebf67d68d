(* Model of resampling in MeshSource.compute, of MeshSource.preview and of to_real_field of views
   (nbodykit/base/mesh.py), on the mesh objects of MeshModel.

   The sides of a mesh are one number Nmesh (a cubic mesh).  Resampling and gathering are those of
   pmesh (arguments); attribute number 1 is 'Nmesh'. *)
From Verif Require Import Base CatModel MeshModel.
Local Open Scope nat_scope.

Section Prv.
Variable F C P : Type.               (* real and Fourier-space fields, numpy arrays *)
Variable r2c : F -> C.
Variable c2r : C -> F.
Variable fr : nat -> kind -> F -> F.
Variable fc : nat -> kind -> C -> C.
Variable resample_real : Z -> Z -> F -> F.       (* Field.resample from one Nmesh to another *)
Variable resample_complex : Z -> Z -> C -> C.
Variable gather : Z -> F -> P.                   (* RealField.preview(Nmesh) without axes *)
Variable size : nat -> Z.                        (* Nmesh of the ParticleMesh made by __init__, mesh.py:41-49 *)
Variable raw : nat -> F.                         (* CatalogMesh.to_real_field(normalize=False), catalog.py:394-401 *)

(* self.pm: views have that of their base, __finalize__ 61-79 *)
Fixpoint pm (fuel : nat) (h : heap F C) (r : nat) : option Z :=
  match fuel with
  | O => None
  | S fuel => match nth_error h r with
              | None => None
              | Some m => match m_cls F C m with
                          | View _ _ => match m_base F C m with Some b => pm fuel h b | None => None end
                          | _ => Some (size r)
                          end
              end
  end.

Record result := { r_nmesh : Z; r_value : var F C; r_attrs : list (nat * Z) }.

Definition resample (n n' : Z) (v : var F C) : var F C :=
  match v with
  | VReal _ _ x => VReal F C (resample_real n n' x)
  | VComplex _ _ c => VComplex F C (resample_complex n n' c)
  end.

(* compute(mode, Nmesh), 246-338; `field` is what the source attached to its field *)
Definition compute_at (field : list (nat * Z)) (h : heap F C) (r : nat) (m : mode) (Nmesh : option Z) : res result :=
  let! v := compute F C r2c c2r fr fc h r m in
  match pm (length h) h r with
  | None => Err AttributeError
  | Some n =>
      let n' := match Nmesh with Some k => k | None => n end in
      Ok {| r_nmesh := n'; r_value := (if (n' =? n)%Z then v else resample n n' v); r_attrs := result_attrs F C h r field |}
  end.

(* preview(Nmesh), 340-365 *)
Definition preview (h : heap F C) (r : nat) (Nmesh : option Z) : res P :=
  let! v := to_field F C r2c c2r h r MReal in
  match v with
  | VComplex _ _ _ => Err TypeError
  | VReal _ _ x =>
      match Nmesh with
      | Some k => Ok (gather k x)
      | None => match pm (length h) h r with Some n => Ok (gather n x) | None => Err AttributeError end
      end
  end.

(* to_real_field(normalize), 184-192 and catalog.py:155-404; other sources have no such argument
   (field.py:40-47) *)
Fixpoint to_real (fuel : nat) (h : heap F C) (r : nat) (normalize : bool) : res (option F) :=
  match fuel with
  | O => Err AttributeError
  | S fuel => match nth_error h r with
              | None => Err AttributeError
              | Some m => match m_cls F C m with
                          | CatalogMesh _ _ x _ => Ok (Some (if normalize then x else raw r))
                          | Source _ _ x _ => if normalize then Ok x else Err TypeError
                          | View _ _ => match m_base F C m with Some b => to_real fuel h b true | None => Ok None end
                          end
              end
  end.
End Prv.
