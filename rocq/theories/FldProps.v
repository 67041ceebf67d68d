From Verif Require Import Base.
From Coq Require Import String.
From Verif Require Import SaveModel MeshModel MeshSpec FldModel FldSpec FldProofs.
Local Open Scope nat_scope.
Local Notation length := List.length.

(* C237: a mesh that is saved and opened again is the same mesh, whatever ranks wrote it and read it *)
Theorem C237_roundtrip : forall (V J : Type) (dumps : J -> option string) (loads : string -> res (attr J)) (f : field V J) ws rs kwargs,
  json_ok dumps loads -> good_field f -> (forall k s, In (k, AStr s) (fd_attrs f) -> String.prefix "json://" s = false) ->
  sumn ws = length (fd_data f) -> sumn rs = prodn (stored_shape (fd_fourier f) (fd_nmesh f)) ->
  let ds := save_mesh dumps f ws in
  exists m, open_mesh loads ds kwargs = Ok m /\ b_fourier m = fd_fourier f /\ b_f8 m = fd_f8 f /\ b_nmesh m = fd_nmesh f /\ b_box m = fd_box f /\
    dget (b_attrs m) "ndarray.shape" = Some (VAttr (AArr (map Z.of_nat (stored_shape (fd_fourier f) (fd_nmesh f))))) /\
    read_mesh ds m (fd_fourier f) rs = Ok (Some (fd_data f)) /\ read_mesh ds m (negb (fd_fourier f)) rs = Ok None /\
    (forall k, ~ reserved k -> match dget (fd_attrs f) k with
       | Some a => match a with AObj j => dumps j <> None -> dget (b_attrs m) k = Some (VAttr a) | _ => exists v, dget (b_attrs m) k = Some v /\ restored a v end
       | None => dget (b_attrs m) k = dget kwargs k end).
Proof. intros V J dumps loads f ws rs kwargs JO GF PL. apply (roundtrip dumps loads f ws rs kwargs JO GF). intros k a Hin s ->. exact (PL k s Hin). Qed.
Print Assumptions C237_roundtrip.
Definition demo_dumps (j : bool) : option string := if j then Some "null"%string else None.
Definition demo_loads (s : string) : res (attr bool) := if String.eqb s "null" then Ok (AObj true) else Err ValueError.
Definition demo_field : field Z bool :=
  {| fd_fourier := true; fd_f8 := true; fd_nmesh := [2; 3]; fd_box := [10; 20]%Z; fd_data := [1; 2; 3; 4]%Z;
     fd_attrs := [("seed"%string, ANum 42%Z); ("edges"%string, AArr [1; 2]%Z); ("Nmesh"%string, AArr [7; 7]%Z); ("opt"%string, AObj true); ("lost"%string, AObj false)] |}.
Example C237_example : json_ok demo_dumps demo_loads /\ good_field demo_field /\ sumn [3; 0; 1] = 4 /\
  (exists m, open_mesh demo_loads (save_mesh demo_dumps demo_field [3; 0; 1]) [] = Ok m /\ b_nmesh m = [2; 3] /\ map fst (b_attrs m) = ["ndarray.shape"; "BoxSize"; "Nmesh"; "seed"; "edges"; "opt"]%string /\
     read_mesh (save_mesh demo_dumps demo_field [3; 0; 1]) m true [2; 2] = Ok (Some [1; 2; 3; 4]%Z)).
Proof.
  split; [intros [|] s H; [injection H as <-; reflexivity|discriminate]|]. split.
  - split; [left; reflexivity|]. split; [reflexivity|]. split; [reflexivity|]. cbn. repeat constructor; cbn; intuition discriminate.
  - split; [reflexivity|]. eexists. split; [vm_compute; reflexivity|]. split; [reflexivity|]. split; reflexivity.
Qed.
Theorem C237_missing : forall (V J : Type) (loads : string -> res (attr J)) (ds : dataset V) kwargs,
  NoDup (map fst (ds_attrs ds)) -> (forall k s, In (k, s) (ds_attrs ds) -> exists v, load_value loads s = Ok v) ->
  (dget (ds_attrs ds) "ndarray.shape" = None /\ dget kwargs "ndarray.shape" = None \/ dget (ds_attrs ds) "Nmesh" = None /\ dget kwargs "Nmesh" = None) ->
  open_mesh loads ds kwargs = Err ValueError.
Proof. intros V J loads. exact (missing loads). Qed.
Print Assumptions C237_missing.
Example C237_missing_ex : open_mesh demo_loads {| ds_complex := false; ds_itemsize := 8; ds_data := [1%Z]; ds_attrs := [("BoxSize"%string, SArr [1; 1]%Z)] |} [] = Err ValueError.
Proof. reflexivity. Qed.

(* C238: attributes are not restored exactly: a vector of one number becomes a number, a string an array of dimension zero *)
Theorem C238_vector_refuted : exists (f : field Z bool) ws m k a, json_ok demo_dumps demo_loads /\ good_field f /\ dget (fd_attrs f) k = Some a /\ ~ reserved k /\
  open_mesh demo_loads (save_mesh demo_dumps f ws) [] = Ok m /\ a = AArr [5%Z] /\ dget (b_attrs m) k = Some (VAttr (ANum 5%Z)).
Proof.
  exists {| fd_fourier := false; fd_f8 := true; fd_nmesh := [1; 2]; fd_box := [1; 1]%Z; fd_data := [1; 2]%Z; fd_attrs := [("k"%string, AArr [5]%Z)] |}, [2].
  eexists _, "k"%string, _. split; [intros [|] s H; [injection H as <-; reflexivity|discriminate]|]. split.
  - split; [left; reflexivity|]. split; [reflexivity|]. split; [reflexivity|]. cbn. repeat constructor; cbn; intuition discriminate.
  - split; [reflexivity|]. split; [intros [H|[H|H]]; discriminate|]. split; [vm_compute; reflexivity|]. split; reflexivity.
Qed.
Print Assumptions C238_vector_refuted.
Theorem C238_string_refuted : exists (f : field Z bool) ws m k a, good_field f /\ dget (fd_attrs f) k = Some (AStr a) /\ ~ reserved k /\
  open_mesh demo_loads (save_mesh demo_dumps f ws) [] = Ok m /\ dget (b_attrs m) k <> Some (VAttr (AStr a)).
Proof.
  exists {| fd_fourier := false; fd_f8 := true; fd_nmesh := [1; 2]; fd_box := [1; 1]%Z; fd_data := [1; 2]%Z; fd_attrs := [("resampler"%string, AStr "cic")] |}, [2].
  eexists _, "resampler"%string, "cic"%string. split.
  - split; [left; reflexivity|]. split; [reflexivity|]. split; [reflexivity|]. cbn. repeat constructor; cbn; intuition discriminate.
  - split; [reflexivity|]. split; [intros [H|[H|H]]; discriminate|]. split; [vm_compute; reflexivity|]. discriminate.
Qed.
Print Assumptions C238_string_refuted.
(* a mesh with a string that starts with json:// cannot be opened at all *)
Theorem C238_prefix_refuted : exists (f : field Z bool) ws, good_field f /\ open_mesh demo_loads (save_mesh demo_dumps f ws) [] = Err ValueError.
Proof.
  exists {| fd_fourier := false; fd_f8 := true; fd_nmesh := [1; 2]; fd_box := [1; 1]%Z; fd_data := [1; 2]%Z; fd_attrs := [("note"%string, AStr "json://x")] |}, [2]. split; [|reflexivity].
  split; [left; reflexivity|]. split; [reflexivity|]. split; [reflexivity|]. cbn. repeat constructor; cbn; intuition discriminate.
Qed.
Print Assumptions C238_prefix_refuted.

(* C239: meta-data given as keywords is lost where the file has an attribute of the name *)
Theorem C239_kwargs_refuted : exists (f : field Z bool) ws kwargs m k v, good_field f /\ dget kwargs k = Some v /\ ~ reserved k /\
  open_mesh demo_loads (save_mesh demo_dumps f ws) kwargs = Ok m /\ dget (b_attrs m) k <> Some v.
Proof.
  exists {| fd_fourier := false; fd_f8 := true; fd_nmesh := [1; 2]; fd_box := [1; 1]%Z; fd_data := [1; 2]%Z; fd_attrs := [("shotnoise"%string, ANum 5%Z)] |}, [2], [("shotnoise"%string, VAttr (ANum 0%Z))].
  eexists _, "shotnoise"%string, _. split.
  - split; [left; reflexivity|]. split; [reflexivity|]. split; [reflexivity|]. cbn. repeat constructor; cbn; intuition discriminate.
  - split; [reflexivity|]. split; [intros [H|[H|H]]; discriminate|]. split; [vm_compute; reflexivity|]. discriminate.
Qed.
Print Assumptions C239_kwargs_refuted.

(* C240: the field of an ArrayMesh is the array of the root rank *)
Theorem C240_real : forall (R C K : Type) (irfftn : list nat -> list C -> list R) (scale : nat -> R -> R) n (arrays : nat -> array (R:=R) (C:=C)) box root (kwargs : list (string * K)) shape l,
  root < n -> arrays root = ARealA shape l -> length l = prodn shape ->
  if (length shape =? 2) || (length shape =? 3)
  then exists a, array_mesh irfftn scale n arrays box root kwargs = Ok a /\ a_nmesh a = shape /\ a_box a = box /\ a_data a = l
  else array_mesh irfftn scale n arrays box root kwargs = Err AssertionError.
Proof.
  intros R C K irfftn scale n arrays box root kwargs shape l Hr E L. rewrite (array_real (fun _ _ => []) irfftn scale n arrays box root kwargs shape l Hr E L).
  destruct (_ || _); [|reflexivity]. eexists. split; [reflexivity|]. auto.
Qed.
Print Assumptions C240_real.
Example C240_real_ex : array_mesh (K:=unit) (fun _ (l : list Z) => l) (fun _ x => x) 3 (fun r => if r =? 1 then ARealA [2; 2] [1; 2; 3; 4]%Z else ARealA [9] []) [1; 1]%Z 1 [] =
  Ok {| a_nmesh := [2; 2]; a_box := [1; 1]%Z; a_data := [1; 2; 3; 4]%Z; a_attrs := [("BoxSize"%string, [1; 1]%Z); ("Nmesh"%string, [2; 2]%Z)] |}.
Proof. reflexivity. Qed.
(* the transform of a field with an even number of cells along the last axis gives the field *)
Theorem C240_complex : forall (R C K : Type) r2c (irfftn : list nat -> list C -> list R) (scale : nat -> R -> R) m (arrays : nat -> array (R:=R) (C:=C)) box root (kwargs : list (string * K)) shape n r x,
  fft_ok r2c irfftn scale -> root < m -> rev shape = n :: r -> Nat.Even n -> (length shape = 2 \/ length shape = 3) ->
  length x = prodn shape -> arrays root = AComplexA (halved shape) (r2c shape x) ->
  exists a, array_mesh irfftn scale m arrays box root kwargs = Ok a /\ a_nmesh a = shape /\ a_data a = x.
Proof. intros R C K r2c irfftn scale m arrays box root kwargs shape n r x. rewrite <- half_halved. apply array_complex. Qed.
Print Assumptions C240_complex.
Example C240_complex_ex : fft_ok (fun _ (l : list Z) => l) (fun _ l => l) (fun _ x => x) /\ rev [2; 4] = 4 :: [2] /\ Nat.Even 4 /\ halved [2; 4] = [2; 3].
Proof. split; [intros s x _; apply map_id|]. split; [reflexivity|]. split; [exists 2; reflexivity|reflexivity]. Qed.

(* C241: with an odd number of cells along the last axis another mesh is made *)
Theorem C241_odd : forall (R C K : Type) (irfftn : list nat -> list C -> list R) (scale : nat -> R -> R) m (arrays : nat -> array (R:=R) (C:=C)) box root (kwargs : list (string * K)) shape n r l a,
  root < m -> rev shape = n :: r -> Nat.Odd n -> arrays root = AComplexA (halved shape) l -> array_mesh irfftn scale m arrays box root kwargs = Ok a -> a_nmesh a <> shape.
Proof. intros R C K irfftn scale m arrays box root kwargs shape n r l a. rewrite <- half_halved. apply (array_odd (fun _ _ => [])). Qed.
Print Assumptions C241_odd.
Theorem C241_odd_refuted : exists a, array_mesh (K:=unit) (fun s (_ : list Z) => repeat 1%Z (prodn s)) (fun _ x => x) 1 (fun _ => AComplexA (halved [2; 5]) [1; 2; 3; 4; 5; 6]%Z) [1; 1]%Z 0 [] = Ok a /\ a_nmesh a <> [2; 5].
Proof. eexists. split; [reflexivity|discriminate]. Qed.
Print Assumptions C241_odd_refuted.

(* C242: the meta-data given to ArrayMesh is not stored *)
Theorem C242_kwargs_refuted : exists kwargs a, array_mesh (K:=Z) (fun _ (l : list Z) => l) (fun _ x => x) 1 (fun _ => ARealA [1; 1] [1%Z]) [1; 1]%Z 0 kwargs = Ok a /\
  (exists k v, In (k, v) kwargs /\ ~ In k (map fst (a_attrs a))).
Proof.
  exists [("redshift"%string, 1%Z)]. eexists. split; [reflexivity|]. exists "redshift"%string, 1%Z. split; [left; reflexivity|]. cbn. intuition discriminate.
Qed.
Print Assumptions C242_kwargs_refuted.

(* C243: preview shows the field of the source, without the functions applied to it *)
Theorem C243_source : forall (F C : Type) r2c c2r (l : list (op F C)) x y my f0, (forall z, c2r (r2c z) = z) ->
  let h := exec F C [] l in rooted F C h x y -> nth_error h y = Some my -> source_field F C r2c c2r my f0 ->
  preview F C r2c c2r h x = Ok (VReal F C f0).
Proof. exact preview_source. Qed.
Print Assumptions C243_source.
Definition double (_ : nat) (_ : kind) (x : Z) : Z := (2 * x)%Z.
Definition demo : list (op Z Z) := [ONew Z Z (Source Z Z (Some 3%Z) None) []; OApply Z Z 0 (Plain 1) Relative MReal].
Theorem C243_filters_refuted : exists (F C : Type) r2c c2r fr fc (l : list (op F C)) x, (forall z, c2r (r2c z) = z) /\ (forall z, r2c (c2r z) = z) /\
  is_ok (compute F C r2c c2r fr fc (exec F C [] l) x MReal) = true /\
  preview F C r2c c2r (exec F C [] l) x <> compute F C r2c c2r fr fc (exec F C [] l) x MReal.
Proof. exists Z, Z, (fun x => x), (fun x => x), double, double, demo, 1. split; [reflexivity|]. split; [reflexivity|]. split; [reflexivity|]. vm_compute. discriminate. Qed.
Print Assumptions C243_filters_refuted.
