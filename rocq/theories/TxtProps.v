(* C253: plain text files; C254, C255: claims that fail. *)
From Coq Require Import Ascii String Lia.
From Verif Require Import Base TxtModel TxtSpec TxtProofs.
Local Open Scope nat_scope.
Local Notation length := List.length.
Local Notation concat := List.concat.

Section Oracles.
Context {F V : Type}.
Variable to_float : word -> option F.
Variable to_int : word -> option Z.
Variable cast : word -> word -> res V.
Variable col_name : nat -> word.
Variable itoa : nat -> word.
Hypothesis itoa_digits : forall n, digits (itoa n).
Hypothesis itoa_int : forall n, to_int (itoa n) = Some (Z.of_nat n).
Hypothesis no_hash : forall w, to_float (hash :: w) = None.

(* ==== C253 ==== *)
Theorem C253_one dim t n edges es m vs kw fuel : good_table t n -> numbers to_float t -> header_free t -> 1 <= n -> length edges = S n -> Forall good edges -> Forall2 (fun w x => to_float w = Some x) edges es -> good_meta cast m vs -> kw_ok kw -> n + 4 <= fuel ->
  exists s a, from_plaintext to_float to_int cast col_name fuel [dim] (file_1d itoa t n edges m) kw = Ok s /\ t_dims s = [dim] /\ t_edges s = [es] /\ t_shape s = [n] /\ reads to_float t (t_cols s) /\
  attrs_are m vs a /\ forall k, dfind k (t_attrs s) = match dfind k kw with Some v => Some v | None => dfind k a end.
Proof. exact (plain_1d to_float to_int cast itoa itoa_digits itoa_int no_hash col_name dim t n edges es m vs kw fuel). Qed.
Theorem C253_two d1 d2 t nk nmu ke kes me mes m vs kw fuel : good_table t (nk * nmu) -> numbers to_float t -> 1 <= nk -> 1 <= nmu -> length ke = S nk -> length me = S nmu -> Forall good ke -> Forall2 (fun w x => to_float w = Some x) ke kes -> Forall good me -> Forall2 (fun w x => to_float w = Some x) me mes -> good_meta cast m vs -> kw_ok kw ->
  exists s a, from_plaintext to_float to_int cast col_name fuel [d1; d2] (file_2d itoa t nk nmu ke me m) kw = Ok s /\ t_dims s = [d1; d2] /\ t_edges s = [kes; mes] /\ t_shape s = [nk; nmu] /\ reads to_float t (t_cols s) /\
  attrs_are m vs a /\ forall k, dfind k (t_attrs s) = match dfind k kw with Some v => Some v | None => dfind k a end.
Proof. exact (plain_2d to_float to_int cast itoa itoa_digits itoa_int no_hash col_name d1 d2 t nk nmu ke kes me mes m vs kw fuel). Qed.
End Oracles.
Print Assumptions C253_one.
Print Assumptions C253_two.

(* numbers as texts: n is written with n+1 ones, a float is its text, a value of any type but bool its text *)
Definition itoa0 (n : nat) : word := repeat "1"%char (S n).
Definition to_int0 (w : word) : option Z := Some (Z.of_nat (length w) - 1)%Z.
Definition to_float0 (w : word) : option word := match w with c :: _ => if Ascii.eqb c hash then None else Some w | [] => None end.
Definition cast0 (ty w : word) : res word := Ok w.
Definition col_name0 (i : nat) : word := (lit "col_" ++ itoa0 i)%list.
Lemma oracles0 : (forall n, digits (itoa0 n)) /\ (forall n, to_int0 (itoa0 n) = Some (Z.of_nat n)) /\ (forall w, to_float0 (hash :: w) = None).
Proof.
  split; [|split; [|reflexivity]].
  - intros n. split; [discriminate|]. unfold itoa0. induction (S n); cbn [repeat]; constructor; [|assumption]. change (nat_of_ascii "1") with 49. lia.
  - intros n. unfold to_int0, itoa0. rewrite repeat_length. f_equal. lia.
Qed.
Definition w (s : string) : word := lit s.
Definition table0 : table := [(w "k", TReal [w "0.1"; w "0.2"]); (w "power", TComplex [(w "1.5", w "0"); (w "nan", w "nan")]); (w "modes", TReal [w "7"; w "0"])]%string.
Definition edges0 : list word := [w "0"; w "0.15"; w "0.25"]%string.
Definition meta0 : meta := [(w "N1", w "4033", w "int"); (w "Lx", w "512.0", w "float64")]%string.
Definition vals0 : list word := [w "4033"; w "512.0"]%string.
Ltac lgood := split; [discriminate|repeat (constructor; [reflexivity|]); constructor].
Ltac noc := rewrite <- contains_iff; vm_compute; discriminate.
Lemma table0_ok : good_table table0 2 /\ numbers to_float0 table0 /\ header_free table0.
Proof.
  split; [split; [discriminate|split]|split].
  - repeat constructor; cbn [In map fst]; intuition discriminate.
  - repeat constructor; cbn [fst snd texts flat_map app]; try discriminate; try noc; repeat constructor; discriminate.
  - repeat constructor; cbn [fst snd texts flat_map app]; repeat constructor; eexists; reflexivity.
  - intros nc H. repeat (destruct H as [<-|H]; [split; noc|]). destruct H.
Qed.
Lemma meta0_ok : good_meta cast0 meta0 vals0.
Proof.
  split; [repeat constructor; cbn [In map fst]; intuition discriminate|].
  repeat constructor; cbn [fst snd]; try discriminate; vm_compute; intuition discriminate.
Qed.
Example C253_one_ex : good_table table0 2 /\ numbers to_float0 table0 /\ header_free table0 /\ good_meta cast0 meta0 vals0 /\ Forall2 (fun w x => to_float0 w = Some x) edges0 edges0 /\
  from_plaintext to_float0 to_int0 cast0 col_name0 9 [w "k"%string] (file_1d itoa0 table0 2 edges0 meta0) [] =
  Ok {| t_dims := [w "k"%string]; t_edges := [edges0]; t_shape := [2]; t_cols := [(w "k", Real [w "0.1"; w "0.2"]); (w "power", Complex [(w "1.5", w "0"); (w "nan", w "nan")]); (w "modes", Real [w "7"; w "0"])]%string;
        t_attrs := [(w "N1", MOther (w "4033")); (w "Lx", MOther (w "512.0"))]%string |}.
Proof.
  destruct table0_ok as (H1 & H2 & H3). do 3 (split; [assumption|]). split; [exact meta0_ok|]. split; [repeat constructor|]. vm_compute. reflexivity.
Qed.
Example C253_two_ex : good_table table0 (1 * 2) /\
  from_plaintext to_float0 to_int0 cast0 col_name0 0 [w "k"; w "mu"]%string (file_2d itoa0 table0 1 2 [w "0"; w "1"]%string edges0 meta0) [] =
  Ok {| t_dims := [w "k"; w "mu"]%string; t_edges := [[w "0"; w "1"]%string; edges0]; t_shape := [1; 2]; t_cols := [(w "k", Real [w "0.1"; w "0.2"]); (w "power", Complex [(w "1.5", w "0"); (w "nan", w "nan")]); (w "modes", Real [w "7"; w "0"])]%string;
        t_attrs := [(w "N1", MOther (w "4033")); (w "Lx", MOther (w "512.0"))]%string |}.
Proof. split; [apply table0_ok|]. vm_compute. reflexivity. Qed.

(* ==== C254: edges before the data are taken for the names of the columns, and the rest of the columns is lost ==== *)
Definition no_names (edges : list word) (rows : list (list word)) : list word :=
  (comment [lit "edges"; itoa0 (length edges)] :: map (fun e => comment [e]) edges ++ map line rows)%list.
Theorem C254_default_names_refuted : exists edges rows s, Forall (fun r => length r = 3) rows /\ from_plaintext to_float0 to_int0 cast0 col_name0 9 [w "k"%string] (no_names edges rows) [] = Ok s /\
  map fst (t_cols s) <> map col_name0 [0; 1; 2].
Proof.
  exists edges0, [[w "1"; w "2"; w "3"]; [w "4"; w "5"; w "6"]]%string. eexists. split; [repeat constructor|]. split; [vm_compute; reflexivity|]. vm_compute. discriminate.
Qed.
Print Assumptions C254_default_names_refuted.

(* ==== C255: a flag that is False is read as True; of a text only the first word is read ==== *)
Theorem C255_false_refuted : exists t n edges s, good_table t n /\ from_plaintext to_float0 to_int0 cast0 col_name0 9 [w "k"%string] (file_1d itoa0 t n edges [(w "flag", w "False", w "bool")]%string) [] = Ok s /\
  dfind (w "flag"%string) (t_attrs s) = Some (MBool true).
Proof. exists table0, 2, edges0. eexists. split; [apply table0_ok|]. split; [vm_compute; reflexivity|]. vm_compute. reflexivity. Qed.
Print Assumptions C255_false_refuted.
Theorem C255_text_refuted : exists t n edges s, good_table t n /\ from_plaintext to_float0 to_int0 cast0 col_name0 9 [w "k"%string] (file_1d itoa0 t n edges [(w "name", w "my box", w "str")]%string) [] = Ok s /\
  dfind (w "name"%string) (t_attrs s) = Some (MOther (w "my"%string)).
Proof. exists table0, 2, edges0. eexists. split; [apply table0_ok|]. split; [vm_compute; reflexivity|]. vm_compute. reflexivity. Qed.
Print Assumptions C255_text_refuted.
