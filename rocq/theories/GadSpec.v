(* Gadget snapshots as they are written (users guide, formats 1 and 2), and what reading them should return. *)
From Verif Require Import Base IoSpec GadModel.
From Coq Require Import String.
Local Open Scope Z_scope.
Local Notation length := List.length.
Local Notation concat := List.concat.

Definition le4 (n : Z) : list Z := [n mod 256; n / 256 mod 256; n / 65536 mod 256; n / 16777216 mod 256].
(* a record of Fortran's unformatted output: the length, the bytes, the length *)
Definition frame (x : list Z) : list Z := le4 (zlen x) ++ x ++ le4 (zlen x).
Definition zero_mass (m : list Z) : bool :=
  if list_eq_dec Z.eq_dec m [0;0;0;0;0;0;0;0] then true else if list_eq_dec Z.eq_dec m [0;0;0;0;0;0;0;128] then true else false.

(* a block: its name (8 bytes, format 2) and for every particle type its items *)
Record block := { bl_name : list Z; bl_width : Z; bl_items : nat -> list (list Z) }.
(* format 2 has a name before every block, the header included *)
Record snapshot := { sn_named : bool; sn_name : list Z; sn_npart : list Z; sn_mass : list (list Z); sn_rest : list Z; sn_blocks : list block; sn_tail : list Z }.
(* particle types in a block, in order; individual masses only for types without a mass in the header *)
Definition stored_types (sn : snapshot) (d : coldef) : list nat :=
  match cd_types d with
  | All => seq 0 6
  | t => if String.eqb (cd_name d) "Mass" then filter (fun i => zero_mass (nth i (sn_mass sn) [])) (seq 0 6)
         else match t with Types l => l | _ => [] end
  end.
Definition stored_items (sn : snapshot) (d : coldef) (b : block) : list (list Z) := flat_map (bl_items b) (stored_types sn d).
Definition block_bytes (sn : snapshot) (d : coldef) (b : block) : list Z :=
  match stored_items sn d b with
  | [] => []
  | items => (if sn_named sn then frame (bl_name b) else []) ++ frame (concat items)
  end.
Definition header_bytes (sn : snapshot) : list Z := concat (map le4 (sn_npart sn)) ++ concat (sn_mass sn) ++ sn_rest sn.
Definition start_bytes (sn : snapshot) : list Z := (if sn_named sn then frame (sn_name sn) else []) ++ frame (header_bytes sn).
Definition snapshot_bytes (sn : snapshot) (defs : list coldef) : list Z :=
  start_bytes sn ++ concat (map (fun db => block_bytes sn (fst db) (snd db)) (combine defs (sn_blocks sn))) ++ sn_tail sn.

Definition block_ok (sn : snapshot) (d : coldef) (b : block) : Prop :=
  zlen (bl_name b) = 8 /\ 1 <= cd_items d /\
  match cd_base d with Auto => bl_width b = 4 * cd_items d \/ bl_width b = 8 * cd_items d | Fixed _ s => 1 <= s /\ bl_width b = s * cd_items d end /\
  (cd_types d = NoTypes -> cd_name d = "Mass"%string) /\
  NoDup (stored_types sn d) /\
  (forall i, In i (stored_types sn d) -> (i < 6)%nat /\ zlen (bl_items b i) = nth i (sn_npart sn) 0 /\ Forall (fun x => zlen x = bl_width b) (bl_items b i)).
Definition snapshot_ok (sn : snapshot) (defs : list coldef) : Prop :=
  zlen (sn_name sn) = 8 /\ length (sn_npart sn) = 6%nat /\ Forall (fun n => 0 <= n < 2 ^ 32) (sn_npart sn) /\
  length (sn_mass sn) = 6%nat /\ Forall (fun m => zlen m = 8) (sn_mass sn) /\ zlen (sn_rest sn) = 184 /\
  Forall2 (block_ok sn) defs (sn_blocks sn) /\ NoDup (map cd_name defs).
(* every block of less than 2 GB *)
Definition small_blocks (sn : snapshot) (defs : list coldef) : Prop :=
  Forall2 (fun d b => zlen (stored_items sn d b) * bl_width b < 2 ^ 31) defs (sn_blocks sn).

(* the columns of particle type p *)
Definition has_column (sn : snapshot) (p : nat) (d : coldef) : bool := String.eqb (cd_name d) "Mass" || existsb (Nat.eqb p) (stored_types sn d).
(* rows start:stop:step of a column *)
Definition column_rows (sn : snapshot) (p : nat) (d : coldef) (b : block) (idx : list Z) (out : list cell) : Prop :=
  let m := nth p (sn_mass sn) [] in
  if String.eqb (cd_name d) "Mass" && negb (zero_mass m) then out = repeat (HeaderMass m) (length idx)
  else exists rows, out = map Data rows /\ rows_at (bl_items b p) idx rows.
