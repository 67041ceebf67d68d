(* C328-C331 *)
From Coq Require Import Ascii.
From Verif Require Import Base Num IoSpec CsvModel CsvSpec CtyModel CtySpec CtyProofs.
From Coq Require Import String.
Local Open Scope nat_scope.
Local Notation length := List.length.
Local Notation concat := List.concat.

(* ---- C328: the columns of a text file ---- *)
(* which files are opened, and the types of the columns *)
Theorem C328_open : forall fields ls tail names bs d c, Forall no_newline ls -> no_newline tail ->
  let rows := first_rows ls tail c in
  let good := ~ refused c /\ 1 <= bs /\ (exists first rest, rows = first :: rest /\ length (fields first) = length names) /\ NoDup names /\ NoDup (used names c) /\ incl (used names c) names /\
    (forall r n x, In r rows -> In n (used names c) -> field fields names r n x -> number x) in
  (good -> exists v, open fields (text ls tail) names bs d c = Ok v) /\ (~ good -> open fields (text ls tail) names bs d c = Err ValueError) /\
  forall v, open fields (text ls tail) names bs d c = Ok v -> map fst (v_dtype v) = used names c /\ (forall n t, In (n, t) (v_dtype v) -> type_of fields names d rows n t).
Proof.
  intros fields ls tail names bs d c H1 H2 rows good. destruct (open_ok fields ls tail names bs d c H1 H2) as (A & B & C). split; [exact A|]. split; [exact B|]. intros v V. destruct (C v V) as (_ & D & E & _). split; [exact D|exact E].
Qed.
Print Assumptions C328_open.
(* the values *)
Theorem C328_values : forall fields ls tail bs names d c v columns, readable ls tail bs c -> g_c c = true -> (g_skiprows c = 0 \/ start_of ls (g_skiprows c - 1) <= bs) ->
  open fields (text ls tail) names bs d c = Ok v -> let rows := all_rows ls tail c in
  (forall r n t x, In r rows -> In (n, t) (v_dtype v) -> field fields names r n x -> exists y, denotes t x y) -> incl columns (used names c) ->
  v_size v = zlen rows /\ exists vals, Forall2 (fun r cells => Forall2 (fun n y => exists t x, In (n, t) (v_dtype v) /\ field fields names r n x /\ denotes t x y) columns cells) rows vals /\
    reads_slices vals (read fields v columns).
Proof.
  intros fields ls tail bs names d c v columns HR HC HK HO rows HD HI. apply (values_ok fields ls tail bs names d c v columns HR HC HK HO HD).
  destruct HR as (R1 & R2 & _). destruct (open_ok fields ls tail names bs d c R1 R2) as (_ & _ & C). destruct (C v HO) as (_ & D & _). rewrite D. exact HI.
Qed.
Print Assumptions C328_values.

(* a reader of lines for the examples: words of digits, of digits and half (".5"), others; "-" for nothing *)
Definition b_ (s : string) : bytes := list_ascii_of_string s.
Definition digit (a : ascii) : option Z := let n := Z.of_nat (nat_of_ascii a) in if (48 <=? n)%Z && (n <=? 57)%Z then Some (n - 48)%Z else None.
Fixpoint word (acc : Z) (l : bytes) : tok :=
  match l with
  | [] => TInt acc
  | a :: l => match digit a with
              | Some k => word (10 * acc + k) l
              | None => if list_eq_dec ascii_dec (a :: l) (b_ ".5") then TFlt (zq acc + / zq 2)%Qc else TText
              end
  end.
Fixpoint words (cur : bytes) (l : bytes) : list bytes :=
  match l with
  | [] => match cur with [] => [] | _ => [rev cur] end
  | a :: l => if Ascii.eqb a " " then match cur with [] => words [] l | _ => rev cur :: words [] l end else words (a :: cur) l
  end.
Definition fields_ (l : bytes) : list tok := map (fun w => if list_eq_dec ascii_dec w (b_ "-") then TMiss else word 0 w) (words [] l).
Definition names_ : list string := ["x"; "y"; "z"]%string.
Definition cfg (usecols : option (list string)) (engine_c : bool) (nrows : option (option Z)) (skiprows : nat) : config :=
  {| g_index_col := false; g_comment := false; g_header := false; g_skiprows_list := false; g_skipfooter := false;
     g_usecols := usecols; g_c := engine_c; g_nrows := nrows; g_skip_blank := true; g_skiprows := skiprows |}.
Definition ls_ : list bytes := map b_ ["# a"; "1 2.5 3"; "4 5 6.5"; "7 8 9"; "10 11.5 12"]%string.
Definition open_ := open fields_ (text ls_ []) names_ 20 (Dict [("z", F4)]%string) (cfg (Some ["z"; "x"; "y"]%string) true None 1).
Definition half (z : Z) : Qc := (zq z + / zq 2)%Qc.
Example C328_ex : exists v, open_ = Ok v /\ v_dtype v = [("z", F4); ("x", I8); ("y", F8)]%string /\ v_size v = 4%Z /\
  read fields_ v ["y"; "z"]%string 1 4 2 = Ok [[VF8 (Some (zq 5)); VF4 (Some (half 6))]; [VF8 (Some (half 11)); VF4 (Some (zq 12))]] /\
  read fields_ v ["x"]%string 0 4 1 = Ok [[VInt 1]; [VInt 4]; [VInt 7]; [VInt 10]].
Proof. eexists. split; [vm_compute; reflexivity|]. repeat split; vm_compute; reflexivity. Qed.
Example C328_readable_ex : readable ls_ [] 20 (cfg (Some ["z"; "x"; "y"]%string) true None 1) /\ start_of ls_ 0 <= 20 /\
  all_rows ls_ [] (cfg (Some ["z"; "x"; "y"]%string) true None 1) = map b_ ["1 2.5 3"; "4 5 6.5"; "7 8 9"; "10 11.5 12"]%string.
Proof.
  split; [|split; [vm_compute; lia|reflexivity]]. unfold readable. split; [repeat constructor; vm_compute; intuition discriminate|]. split; [vm_compute; intuition discriminate|]. split; [lia|]. split; [discriminate|]. split; [|exact I].
  constructor; [vm_compute; reflexivity|vm_compute; lia|]. intros _ k l H Hb. exfalso. do 5 (destruct k as [|k]; [vm_compute in H; injection H as <-; discriminate Hb|]). vm_compute in H. destruct k; discriminate H.
Qed.
(* files that are refused: a word, nothing, a missing column, two of the same name *)
Example C328_refused_ex : open fields_ (text (map b_ ["1 2 a"]%string) []) names_ 16 (Dict []) (cfg None true None 0) = Err ValueError /\
  open fields_ (text (map b_ ["1 2 3"; "1 - 3"]%string) []) names_ 16 (All F8) (cfg None true None 0) = Err ValueError /\
  open fields_ (text (map b_ ["1 2"]%string) []) names_ 16 (Dict []) (cfg None true None 0) = Err ValueError /\
  open fields_ (text (map b_ ["1 2"]%string) []) ["x"; "x"]%string 16 (Dict []) (cfg None true None 0) = Err ValueError.
Proof. repeat split; vm_compute; reflexivity. Qed.

(* ---- C329: types found from the first ten rows ---- *)
Theorem C329_later_rows_refuted : exists fields ls names bs c v, readable ls [] bs c /\ g_c c = true /\ g_skiprows c = 0 /\
  (forall r n x, In r (all_rows ls [] c) -> In n names -> field fields names r n x -> number x) /\
  open fields (text ls []) names bs (Dict []) c = Ok v /\ v_size v = 11%Z /\
  read fields v names 0 1 1 = Err ValueError.
Proof.
  exists fields_, (map b_ ["1"; "2"; "3"; "4"; "5"; "6"; "7"; "8"; "9"; "10"; "11.5"]%string), ["x"]%string, 100, (cfg None true None 0). eexists. split; [|split; [reflexivity|split; [reflexivity|split; [|split; [vm_compute; reflexivity|split; vm_compute; reflexivity]]]]].
  - unfold readable. split; [repeat constructor; vm_compute; intuition discriminate|]. split; [vm_compute; intuition discriminate|]. split; [lia|]. split; [discriminate|]. split; [|exact I].
    constructor; [vm_compute; reflexivity|vm_compute; lia|]. intros _ k l H Hb. exfalso. do 11 (destruct k as [|k]; [vm_compute in H; injection H as <-; discriminate Hb|]). vm_compute in H. destruct k; discriminate H.
  - intros r n x R N (j & J & ->). destruct j as [|j]; [|cbn [nth_error] in J; destruct j; discriminate J]. cbn in R. repeat (destruct R as [<-|R]; [exact I|]). destruct R.
Qed.
Print Assumptions C329_later_rows_refuted.

(* ---- C330: another engine than 'c' does not know the types ---- *)
Theorem C330_engine_refuted : exists fields ls names bs c v, readable ls [] bs c /\ g_c c = false /\ g_skiprows c = 0 /\
  open fields (text ls []) names bs (All F4) c = Ok v /\ v_dtype v = [("x", F4)]%string /\
  read fields v names 0 2 1 = Ok [[VInt 1]; [VInt 2]].
Proof.
  exists fields_, (map b_ ["1"; "2"]%string), ["x"]%string, 100, (cfg None false None 0). eexists. split; [|split; [reflexivity|split; [reflexivity|split; [vm_compute; reflexivity|split; vm_compute; reflexivity]]]].
  unfold readable. split; [repeat constructor; vm_compute; intuition discriminate|]. split; [vm_compute; intuition discriminate|]. split; [lia|]. split; [discriminate|]. split; [|exact I].
  constructor; [vm_compute; reflexivity|vm_compute; lia|]. intros _ k l H Hb. exfalso. do 2 (destruct k as [|k]; [vm_compute in H; injection H as <-; discriminate Hb|]). vm_compute in H. destruct k; discriminate H.
Qed.
Print Assumptions C330_engine_refuted.

(* ---- C331: skipped lines beyond the first block are read as rows ---- *)
Theorem C331_skipped_refuted : exists fields ls names bs c v, readable ls [] bs c /\ g_c c = true /\ g_skiprows c = 3 /\
  (forall r n x, In r (all_rows ls [] c) -> In n names -> field fields names r n x -> number x) /\
  open fields (text ls []) names bs (Dict []) c = Ok v /\ v_size v = zlen (all_rows ls [] c) /\ v_size v = 2%Z /\
  read fields v names 0 2 1 = Err ValueError.
Proof.
  exists fields_, (map b_ ["# a header"; "# of three"; "# lines"; "1"; "2"]%string), ["x"]%string, 20, (cfg None true None 3). eexists. split; [|split; [reflexivity|split; [reflexivity|split; [|split; [vm_compute; reflexivity|split; [vm_compute; reflexivity|split; vm_compute; reflexivity]]]]]].
  - unfold readable. split; [repeat constructor; vm_compute; intuition discriminate|]. split; [vm_compute; intuition discriminate|]. split; [lia|]. split; [discriminate|]. split; [|exact I].
    constructor; [vm_compute; reflexivity|vm_compute; lia|]. intros _ k l H Hb. exfalso. do 5 (destruct k as [|k]; [vm_compute in H; injection H as <-; discriminate Hb|]). vm_compute in H. destruct k; discriminate H.
  - intros r n x R N (j & J & ->). destruct j as [|j]; [|cbn [nth_error] in J; destruct j; discriminate J]. vm_compute in R. repeat (destruct R as [<-|R]; [exact I|]). destruct R.
Qed.
Print Assumptions C331_skipped_refuted.
