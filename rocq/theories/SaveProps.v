(* C170 - C177: saving catalogs and reading them back, ArrayCatalog, SubVolumesCatalog. *)
From Verif Require Import Base.
From Coq Require Import String Permutation.
From Verif Require Import RanksModel SaveModel SaveSpec SaveProofs.
Local Open Scope nat_scope.
Local Notation length := List.length.
Local Open Scope string_scope.

(* the chunks of all ranks, written in any order, make up the rows in global order *)
Theorem C170_write : forall (V : Type) (parts : list (list (list V))) fill ws, length fill = total parts -> Permutation ws (all_writes parts) ->
  apply_writes fill ws = Ok (rows parts).
Proof. exact (fun V => @write_ok V). Qed.
Print Assumptions C170_write.
Example C170_write_ex : apply_writes [0; 0; 0; 0; 0] (rev (all_writes [[[1; 2]; [3]]; []; [[4; 5]]])) = Ok [1; 2; 3; 4; 5].
Proof. apply (C170_write nat [[[1; 2]; [3]]; []; [[4; 5]]]); [reflexivity|]. apply Permutation_sym, Permutation_rev. Qed.

(* what was saved is read back by any number of ranks; default columns and others not asked for are not in the file *)
Theorem C170_save : forall (V : Type) (fill : nat -> list V) schedule cat columns header nranks,
  (forall n, length (fill n) = n) -> (forall c ws, Permutation (schedule c ws) ws) -> 1 <= nranks ->
  NoDup (map c_name cat) -> NoDup columns -> (forall s, In s columns -> In s (map c_name cat)) ->
  (forall h, header = Some h -> header_name h) ->
  (forall c, In c cat -> In (c_name c) columns -> c_default c = false -> ~ header_name (c_name c)) ->
  exists blocks, save fill schedule cat (Some columns) None header = Ok blocks /\
    (forall c, In c cat -> In (c_name c) columns -> c_default c = false ->
       exists parts, read_column blocks (c_name c) nranks = Some parts /\ List.concat parts = rows (c_parts c)) /\
    (forall name, (forall c, In c cat -> c_name c = name -> In name columns -> c_default c = true) -> read_column blocks name nranks = None).
Proof. exact (fun V => @save_ok V). Qed.
Print Assumptions C170_save.
Definition cat1 : list (column nat) :=
  [{| c_name := "Mass"; c_default := false; c_parts := [[[1; 2]; [3]]; [[4]]] |}; {| c_name := "Weight"; c_default := true; c_parts := [[[1; 1; 1]]; [[1]]] |}].
Example C170_save_ex : exists blocks, save (repeat 0) (fun _ ws => rev ws) cat1 (Some ["Weight"; "Mass"]) None (Some "Header") = Ok blocks /\
  exists parts, read_column blocks "Mass" 3 = Some parts /\ List.concat parts = [1; 2; 3; 4].
Proof.
  destruct (C170_save nat (repeat 0) (fun _ ws => rev ws) cat1 ["Weight"; "Mass"] (Some "Header") 3) as (blocks & E & R & _).
  - intros n. apply repeat_length.
  - intros c ws. apply Permutation_sym, Permutation_rev.
  - auto.
  - cbn. repeat constructor; cbn; intuition discriminate.
  - repeat constructor; cbn; intuition discriminate.
  - cbn. intuition.
  - intros h H. injection H as <-. left. reflexivity.
  - intros c [<-|[<-|[]]] _ D; [|discriminate]. cbn. unfold header_name. intuition discriminate.
  - exists blocks. split; [exact E|]. apply (R (nth 0 cat1 {| c_name := ""; c_default := true; c_parts := [] |})); cbn; tauto.
Qed.

(* a column named like a header is saved but cannot be read back *)
Theorem C171_header_refuted : exists (cat : list (column nat)) blocks,
  save (repeat 0) (fun _ ws => ws) cat None None (Some "Header") = Ok blocks /\
  exists c, In c cat /\ c_default c = false /\ In (c_name c, rows (c_parts c)) blocks /\ rows (c_parts c) <> [] /\ forall nranks, read_column blocks (c_name c) nranks = None.
Proof.
  exists [{| c_name := "header"; c_default := false; c_parts := [[[1; 2]]] |}; {| c_name := "Mass"; c_default := false; c_parts := [[[3; 4]]] |}], [("header", [1; 2]); ("Mass", [3; 4]); ("Header", [])].
  split; [vm_compute; reflexivity|]. eexists. split; [left; reflexivity|]. split; [reflexivity|]. split; [left; reflexivity|]. split; [discriminate|]. intros nranks. reflexivity.
Qed.
Print Assumptions C171_header_refuted.

(* attributes set on a column are not saved, nor kept when the column is assigned back *)
Theorem C172_column_attrs_refuted : exists col k v, In (k, v) (ac_attrs (set_attr (getitem col) k v)) /\
  ~ In (k, v) (saved_attrs col) /\ ~ In (k, v) (ac_attrs (setitem_getitem col (set_attr (getitem col) k v))).
Proof. exists "Mass", "units", 1%Z. split; [left; reflexivity|]. split; intros []. Qed.
Print Assumptions C172_column_attrs_refuted.

(* attributes of the catalog come back, a number as an array of length one; strings must not begin with json:// *)
Theorem C173_attrs : forall J (dumps : J -> option string) loads a, (forall j s, dumps j = Some s -> loads s = Ok (AObj j)) ->
  (forall s, a = AStr s -> String.prefix json_prefix s = false) -> (forall j, a = AObj j -> dumps j <> None) ->
  exists st b, save_attr dumps a = Ok st /\ load_attr loads st = Ok b /\ same_attr a b.
Proof. exact attrs_ok. Qed.
Print Assumptions C173_attrs.
Example C173_attrs_ex : exists st b, save_attr (fun _ : unit => Some "null") (AObj tt) = Ok st /\ load_attr (fun s => if String.eqb s "null" then Ok (AObj tt) else Err ValueError) st = Ok b /\ same_attr (AObj tt) b.
Proof.
  apply C173_attrs; [|discriminate|intros j _; discriminate]. intros [] s H. injection H as <-. reflexivity.
Qed.

(* a string beginning with json:// comes back as something else *)
Theorem C174_json_refuted : forall J (dumps : J -> option string) loads j t, dumps j = Some t -> loads t = Ok (AObj j) ->
  exists s st, save_attr dumps (AStr s) = Ok st /\ load_attr loads st = Ok (AObj j).
Proof.
  intros J dumps loads j t _ Hl. exists (json_prefix ++ t), (SStr (json_prefix ++ t)). split; [reflexivity|]. cbn [load_attr]. destruct (json_strip t) as [-> ->]. exact Hl.
Qed.
Print Assumptions C174_json_refuted.
Example C174_json_ex : load_attr (fun s => if String.eqb s "null" then Ok (AObj tt) else Err ValueError) (SStr "json://null") = Ok (AObj tt).
Proof. reflexivity. Qed.

(* ranks with the same columns and columns of equal length make a catalog *)
Theorem C175_array : forall (D : Type) (deq : D -> D -> bool) (datas : list (@adata D)) sizes dt, (forall x, deq x x = true) -> dt <> [] ->
  Forall2 (fun d n => map fst d = dt /\ forall c, In c d -> snd c = n) datas sizes -> ArrayCatalog deq datas = map Ok sizes.
Proof. exact (fun D => @array_ok D). Qed.
Print Assumptions C175_array.
Example C175_array_ex : ArrayCatalog Nat.eqb [[("Mass", 8, 2); ("Position", 24, 2)]; [("Mass", 8, 0); ("Position", 24, 0)]] = map Ok [2; 0].
Proof.
  apply (C175_array nat Nat.eqb _ _ [("Mass", 8); ("Position", 24)]); [apply Nat.eqb_refl|discriminate|].
  repeat constructor; intros c Hc; cbn in Hc; intuition (subst; reflexivity).
Qed.

(* different types on two ranks: the first raises, the others wait for ever *)
Theorem C176_mismatch_refuted : exists datas : list (@adata nat),
  (exists a b, In a datas /\ In b datas /\ map fst a <> map fst b) /\ ArrayCatalog Nat.eqb datas <> map (fun _ => Err ValueError) datas /\ In (Err Deadlock) (ArrayCatalog Nat.eqb datas).
Proof.
  exists [[("Mass", 8, 2)]; [("Mass", 4, 2)]]. split; [|split].
  - exists [("Mass", 8, 2)], [("Mass", 4, 2)]. split; [left; reflexivity|]. split; [right; left; reflexivity|]. cbn. intros H. injection H as H. discriminate.
  - cbn. discriminate.
  - cbn. right. left. reflexivity.
Qed.
Print Assumptions C176_mismatch_refuted.

(* every row goes as a whole to the rank whose subvolume holds its position, none is lost or repeated *)
Theorem C177_subvolumes : forall (V : Type) (decompose : V -> nat) position (cols : list (string * list (list V))) columns positions sv,
  lookup cols position = Ok positions ->
  (forall name data, In (name, data) cols -> map (@length V) data = map (@length V) positions) ->
  (forall l v, In l positions -> In v l -> decompose v < length positions) ->
  SubVolumes decompose position cols columns = Ok sv ->
  exists origin, length origin = length positions /\ Permutation (List.concat origin) (places (map (@length V) positions)) /\
    (forall name new, In (name, new) (sv_cols sv) -> exists data, lookup cols name = Ok data /\ comes_from data new origin) /\
    (forall r o p v, nth_error origin r = Some o -> In p o -> value_at positions p = Some v -> decompose v = r) /\
    sv_size sv = map (@length _) origin.
Proof. exact (fun V => @subvolumes_ok V). Qed.
Print Assumptions C177_subvolumes.
Example C177_subvolumes_ex : let cols := [("Position", [[7; 2]; [9]]); ("Mass", [[70; 20]; [90]])] in
  SubVolumes (fun x => if (x <? 5)%nat then 0 else 1) "Position" cols None = Ok {| sv_size := [1; 2]; sv_cols := [("Position", [[2]; [7; 9]]); ("Mass", [[20]; [70; 90]])] |} /\
  forall l v, In l [[7; 2]; [9]] -> In v l -> ((if (v <? 5)%nat then 0 else 1) < 2)%nat.
Proof. split; [reflexivity|]. intros l v _ _. destruct (v <? 5)%nat; lia. Qed.

(* it succeeds for all columns of the source, with the columns asked for *)
Theorem C177_total : forall (V : Type) (decompose : V -> nat) position (cols : list (string * list (list V))) columns,
  (forall name, In name (position :: columns) -> In name (map fst cols)) ->
  exists sv, SubVolumes decompose position cols (Some columns) = Ok sv /\ map fst (sv_cols sv) = columns.
Proof. exact (fun V => @subvolumes_total V). Qed.
Print Assumptions C177_total.
Example C177_total_ex : exists sv, SubVolumes (fun x : nat => 0) "Position" [("Position", [[7; 2]; [9]]); ("Mass", [[70; 20]; [90]])] (Some ["Mass"]) = Ok sv /\ map fst (sv_cols sv) = ["Mass"].
Proof. apply C177_total. cbn. intuition. Qed.
