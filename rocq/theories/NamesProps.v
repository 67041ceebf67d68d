(* C33, C45, C47, C110-C114 *)
From Coq Require Import Ascii String Sorting.Sorted.
From Verif Require Import Base NamesModel NamesSpec NamesProofs NamesMore.
Local Open Scope nat_scope.

(* ---- C33 ---- *)
Theorem C33_constructor : forall A names (cats : list (cat A)),
  is_ok (multi_init names cats) = true <-> NoDup names /\ List.length names = List.length cats.
Proof. exact @init_ok_iff. Qed.
Print Assumptions C33_constructor.

(* 's/c' reads column c of the catalog of s *)
Theorem C33_read : forall A (m : multi A) s c, reachable m -> In s (m_species m) -> noslash s -> noslash c ->
  ~ In (qualified s c) (m_species m) ->
  exists ct, multi_get m s = Ok (ISpecies ct) /\ multi_get m (qualified s c) = let! l := cat_get ct c in Ok (IColumn l).
Proof. intros A m s c H. exact (get_column m s c (reachable_wf m H)). Qed.
Print Assumptions C33_read.

(* an assignment is accepted for a scalar or an array of the size of the species *)
Theorem C33_set_accepted : forall A (m : multi A) s c v, reachable m -> In s (m_species m) -> noslash s -> noslash c ->
  (is_ok (multi_set m (qualified s c) v) = true <->
   exists ct, multi_get m s = Ok (ISpecies ct) /\ match v with Scalar _ => True | Array l => List.length l = c_size ct end).
Proof. intros A m s c v H. exact (set_ok_iff m s c v (reachable_wf m H)). Qed.
Print Assumptions C33_set_accepted.

Theorem C33_set_needs_species : forall A (m m' : multi A) k v, multi_set m k v = Ok m' ->
  exists s c, In s (m_species m) /\ noslash s /\ noslash c /\ k = qualified s c.
Proof. intros A m m' k v. exact (set_needs_species m k v m'). Qed.
Print Assumptions C33_set_needs_species.

Theorem C33_last_write : forall A (m m1 : multi A) k v ops, reachable m -> ~ In k (m_species m) ->
  multi_set m k v = Ok m1 -> (forall o, In o ops -> op_names o <> k) ->
  exists s c ct, k = qualified s c /\ multi_get m s = Ok (ISpecies ct) /\
    multi_get (mexec m1 ops) k = Ok (IColumn (stored (c_size ct) v)).
Proof.
  intros A m m1 k v ops Hr. exact (last_write m m1 k v ops (reachable_wf m Hr)).
Qed.
Print Assumptions C33_last_write.

Theorem C33_delete : forall A (m m' : multi A) k, multi_del m k = Ok m' -> ~ In k (m_species m) -> multi_get m' k = Err ValueError.
Proof. intros A m m' k. exact (del_get m k m'). Qed.
Print Assumptions C33_delete.

(* operations on other columns and on other species change nothing *)
Theorem C33_frame : forall A (m : multi A) ops j, reachable m -> (forall o, In o ops -> op_names o <> j) -> ~ In j (m_species m) ->
  multi_get (mexec m ops) j = multi_get m j.
Proof. intros A m ops j H. exact (exec_frame ops m j (reachable_wf m H)). Qed.
Print Assumptions C33_frame.
Theorem C33_frame_species : forall A (m : multi A) o s, reachable m -> In s (m_species m) -> (forall c, op_names o <> qualified s c) ->
  multi_get (mstep m o) s = multi_get m s.
Proof. intros A m o s H. exact (step_frame_species m o s (reachable_wf m H)). Qed.
Print Assumptions C33_frame_species.

(* the listing: exactly the readable names, each once *)
Theorem C33_columns : forall A (m : multi A) k, reachable m -> (forall s, In s (m_species m) -> noslash s) ->
  (forall s c ct, In s (m_species m) -> multi_get m s = Ok (ISpecies ct) -> In c (cat_columns ct) -> noslash c) ->
  In k (multi_columns m) <-> exists l, multi_get m k = Ok (IColumn l).
Proof. intros A m k H. exact (columns_readable m k (reachable_wf m H)). Qed.
Print Assumptions C33_columns.
Theorem C33_columns_nodup : forall A (m : multi A), reachable m -> (forall s, In s (m_species m) -> noslash s) -> NoDup (multi_columns m).
Proof. intros A m H. exact (columns_nodup m (reachable_wf m H)). Qed.
Print Assumptions C33_columns_nodup.

Local Open Scope string_scope.
Definition ex_data : cat nat := {| c_size := 2; c_hard := [(s_ "Pos", [1; 2])]; c_over := [] |}.
Definition ex_rand : cat nat := {| c_size := 3; c_hard := [(s_ "Pos", [7; 8; 9])]; c_over := [] |}.
Definition ex_names : list str := [s_ "data"; s_ "randoms"].
Definition ex_ops : list (mop nat) := [MSet (s_ "data/W") (Scalar 5); MSet (s_ "randoms/W") (Array [1; 2; 3]); MSet (s_ "W") (Scalar 1);
   MSet (s_ "data/Q") (Array [1]); MDel (s_ "randoms/W"); MDel (s_ "data/Pos"); MSet (s_ "randoms/V") (Scalar 4)].
Definition ex_run : option (res (item nat) * res (item nat) * res (item nat) * res (item nat) * list str) :=
  match multi_init ex_names [ex_data; ex_rand] with
  | Ok m => let m := mexec m ex_ops in
      Some (multi_get m (s_ "data/W"), multi_get m (s_ "randoms/W"), multi_get m (s_ "randoms/V"), multi_get m (s_ "data/Pos"), multi_columns m)
  | Err _ => None end.
Example C33_example : ex_run = Some (Ok (IColumn [5; 5]), Err ValueError, Ok (IColumn [4; 4; 4]), Ok (IColumn [1; 2]),
  [s_ "data/Pos"; s_ "data/W"; s_ "randoms/Pos"; s_ "randoms/V"]).
Proof. vm_compute. reflexivity. Qed.
Example C33_example_hyps : reachable (mexec {| m_species := ex_names; m_sources := combine ex_names [ex_data; ex_rand] |} ex_ops)
  /\ (forall s, In s ex_names -> noslash s) /\ ~ In (s_ "data/W") ex_names.
Proof.
  split; [|split].
  - exists ex_names, [ex_data; ex_rand]. eexists. exists ex_ops. split; [vm_compute; reflexivity|reflexivity].
  - intros s [<-|[<-|[]]]; vm_compute; intuition discriminate.
  - vm_compute. intuition discriminate.
Qed.

(* ---- C110: names with a slash are listed and cannot be read ---- *)
Theorem C110_slash_columns_refuted : exists (m : multi nat) k, reachable m /\ (forall s, In s (m_species m) -> noslash s) /\
  In k (multi_columns m) /\ multi_get m k = Err ValueError.
Proof.
  exists {| m_species := ex_names; m_sources := combine ex_names [ {| c_size := 1; c_hard := [(s_ "a/b", [1])]; c_over := [] |}; ex_rand] |}, (s_ "data/a/b").
  split; [|split; [|split]].
  - exists ex_names, [ {| c_size := 1; c_hard := [(s_ "a/b", [1])]; c_over := [] |}; ex_rand]. eexists. exists []. split; [vm_compute; reflexivity|reflexivity].
  - intros s [<-|[<-|[]]]; vm_compute; intuition discriminate.
  - left. reflexivity.
  - vm_compute. reflexivity.
Qed.
Print Assumptions C110_slash_columns_refuted.

(* ---- C111 ---- *)
Theorem C111_metadata : forall V (eqv : V -> V -> bool), (forall a b, eqv a b = true <-> a = b) ->
  forall name attrs species v,
  check_species_metadata eqv name attrs species = Ok v <->
  (exists k, (k = name \/ exists s, In s species /\ k = (s ++ dot :: name)%list) /\ dget attrs k = Some v) /\
  (forall k w, (k = name \/ exists s, In s species /\ k = (s ++ dot :: name)%list) -> dget attrs k = Some w -> w = v).
Proof. exact metadata_ok. Qed.
Print Assumptions C111_metadata.
Theorem C111_metadata_error : forall V (eqv : V -> V -> bool) name attrs species e,
  check_species_metadata eqv name attrs species = Err e -> e = ValueError.
Proof. exact metadata_err. Qed.
Print Assumptions C111_metadata_error.
Example C111_example :
  check_species_metadata Nat.eqb (s_ "BoxSize") [(s_ "data.BoxSize", 5); (s_ "randoms.BoxSize", 5)] ex_names = Ok 5 /\
  check_species_metadata Nat.eqb (s_ "BoxSize") [(s_ "data.BoxSize", 5); (s_ "randoms.BoxSize", 6)] ex_names = Err ValueError /\
  check_species_metadata Nat.eqb (s_ "BoxSize") [(s_ "data.Nmesh", 5)] ex_names = Err ValueError.
Proof. repeat split. Qed.

(* ---- C45 ---- *)
Theorem C45_published_codes : forall types, NoDup types ->
  ((forall t, In t types -> gal_attr types t = Some (gal_code types t)) <-> StronglySorted str_lt (tl types)).
Proof. exact gal_types_iff. Qed.
Print Assumptions C45_published_codes.
Theorem C45_codes_distinct : forall types a b, NoDup types -> In a types -> In b types -> gal_code types a = gal_code types b -> a = b.
Proof. exact gal_code_inj. Qed.
Print Assumptions C45_codes_distinct.
Theorem C45_two_types : forall c s, c <> s ->
  gal_attr [c; s] c = Some (gal_code [c; s] c) /\ gal_attr [c; s] s = Some (gal_code [c; s] s).
Proof.
  intros c s H. assert (Hn : NoDup [c; s]) by (repeat constructor; cbn; intuition congruence).
  assert (Hs : StronglySorted str_lt (tl [c; s])) by (repeat constructor).
  pose proof (proj2 (gal_types_iff [c; s] Hn) Hs) as Hh. split; apply Hh; cbn; auto.
Qed.
Print Assumptions C45_two_types.
Example C45_example : NoDup [s_ "centrals"; s_ "orphans"; s_ "satellites"] /\
  map (gal_code [s_ "centrals"; s_ "orphans"; s_ "satellites"]) [s_ "centrals"; s_ "orphans"; s_ "satellites"] = [0; 1; 2].
Proof. split; [|vm_compute; reflexivity]. repeat constructor; vm_compute; intuition discriminate. Qed.

(* ---- C112: three types in another order get other codes than published ---- *)
Theorem C112_unsorted_types_refuted : exists types t, NoDup types /\ In t types /\ gal_attr types t <> Some (gal_code types t).
Proof.
  exists [s_ "centrals"; s_ "satellites"; s_ "orphans"], (s_ "orphans").
  split; [repeat constructor; vm_compute; intuition discriminate|]. split; [cbn; auto|]. vm_compute. discriminate.
Qed.
Print Assumptions C112_unsorted_types_refuted.

(* ---- C47 ---- *)
(* The root, the excluded names and the header are given as paths, with any
   number of slashes in front of the root and the excluded names. *)
Theorem C47_exclude : forall infile nr root ex header found l,
  Forall good_name root ->
  (forall n e, In (n, e) ex -> Forall good_name e /\ (e <> [] \/ 0 < n)) ->
  (forall e, header = Some e -> Forall good_name e) ->
  (forall c, In c found -> Forall good_name c /\ c <> []) ->
  hdf_columns infile (repeat slash nr ++ render root)%list
    (map (fun ne : nat * path => (repeat slash (fst ne) ++ render (snd ne))%list) ex) (option_map render header) (map render found) = Ok l ->
  (forall x, In x l -> In x (map render found)) /\
  (forall c g, In c found -> excluded_path infile root ex header g -> within g (root ++ c)%list -> ~ In (render c) l) /\
  (forall c, In c found -> (forall g, excluded_path infile root ex header g -> ~ within g (root ++ c)%list /\ no_lookalike g (root ++ c)%list) ->
     In (render c) l).
Proof. intros infile nr root ex header found l H1 H2 H3 H4. exact (hdf_columns_ok infile nr root ex header found H1 H2 H3 H4 l). Qed.
Print Assumptions C47_exclude.
Theorem C47_accepts : forall infile root ex header found,
  is_ok (hdf_columns infile root ex header found) = true <->
  infile root = true /\ (forall e, In e ex -> infile e = true \/ infile (path_join root e) = true) /\
  (forall h, header = Some h -> infile h = true).
Proof. exact hdf_accepts. Qed.
Print Assumptions C47_accepts.

Definition ex_file (s : str) : bool :=
  mem (lstrip s) [s_ ""; s_ "Part"; s_ "Part/Pos"; s_ "Part/Vel"; s_ "Part/Position"; s_ "Header"; s_ "Header/x"].
Definition ex_found : list path := [[s_ "Part"; s_ "Pos"]; [s_ "Part"; s_ "Vel"]; [s_ "Part"; s_ "Position"]; [s_ "Header"; s_ "x"]].
Example C47_example :
  hdf_columns ex_file (s_ "/") [s_ "Part/Vel"] (Some (s_ "Header")) (map render ex_found) = Ok [s_ "Part/Pos"; s_ "Part/Position"] /\
  hdf_columns ex_file (s_ "/Part") [s_ "Vel"] None [s_ "Pos"; s_ "Vel"; s_ "Position"] = Ok [s_ "Pos"; s_ "Position"] /\
  hdf_columns ex_file (s_ "/Part") [s_ "Mass"] None [s_ "Pos"; s_ "Vel"; s_ "Position"] = Err ValueError.
Proof. vm_compute. repeat split. Qed.
Example C47_example_hyps : Forall good_name [s_ "Part"; s_ "Vel"] /\ (forall c, In c ex_found -> Forall good_name c /\ c <> []).
Proof.
  assert (Hg : forall w, In w [s_ "Part"; s_ "Pos"; s_ "Vel"; s_ "Position"; s_ "Header"; s_ "x"] -> good_name w).
  { intros w Hw. cbn [In] in Hw. repeat (destruct Hw as [<-|Hw]; [split; vm_compute; intuition discriminate|]). destruct Hw. }
  split; [repeat constructor; apply Hg; cbn; tauto|].
  intros c Hc. cbn [In ex_found] in Hc. repeat (destruct Hc as [<-|Hc]; [split; [repeat constructor; apply Hg; cbn; tauto|discriminate]|]). destruct Hc.
Qed.

(* ---- C113: a data set whose name merely begins like an excluded one ---- *)
Theorem C113_prefix_refuted : exists infile root ex found l,
  hdf_columns infile root ex None found = Ok l /\ In (s_ "Position") found /\ ex = [s_ "Pos"] /\ infile (s_ "Position") = true /\ ~ In (s_ "Position") l.
Proof.
  exists (fun s => mem (lstrip s) [s_ ""; s_ "Pos"; s_ "Position"]), (s_ "/"), [s_ "Pos"], [s_ "Pos"; s_ "Position"], [].
  split; [vm_compute; reflexivity|]. split; [cbn; auto|]. split; [reflexivity|]. split; [vm_compute; reflexivity|intros []].
Qed.
Print Assumptions C113_prefix_refuted.

(* ---- C114: the header group given by its absolute name stays ---- *)
Theorem C114_header_refuted : exists infile root hd found l,
  hdf_columns infile root [] (Some hd) found = Ok l /\ hd = s_ "/Header" /\ infile hd = true /\ In (s_ "Header/x") l.
Proof.
  exists ex_file, (s_ "/"), (s_ "/Header"), [s_ "Part/Pos"; s_ "Header/x"], [s_ "Part/Pos"; s_ "Header/x"].
  split; [vm_compute; reflexivity|]. split; [reflexivity|]. split; [vm_compute; reflexivity|cbn; auto].
Qed.
Print Assumptions C114_header_refuted.
