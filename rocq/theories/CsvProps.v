(* C27, C126-C130 *)
From Coq Require Import Ascii String.
From Verif Require Import Base IoSpec CsvModel CsvSpec CsvProofs CsvMore.
Local Open Scope nat_scope.

(* ---- C27: a partitioned text file is its rows, and its size their number ---- *)
Theorem C27_read : forall ls tail bs skip_blank skip,
  Forall no_newline ls -> no_newline tail -> 1 <= bs -> all_lines ls tail <> [] -> regular ls tail bs skip_blank skip ->
  let rows := wanted skip_blank skip (all_lines ls tail) in
  csv_size (text ls tail) bs skip_blank skip None = Ok (zlen rows) /\
  reads_slices rows (csv_read (text ls tail) bs skip_blank skip None).
Proof. intros ls tail bs sb skip H1 H2 H3 H4 H5. exact (csv_ok ls tail bs sb skip H1 H2 H3 H4 H5 None I). Qed.
Print Assumptions C27_read.

(* ... with a limit on the number of rows *)
Theorem C27_read_limited : forall ls tail bs skip_blank skip n,
  Forall no_newline ls -> no_newline tail -> 1 <= bs -> all_lines ls tail <> [] -> regular ls tail bs skip_blank skip ->
  clear_limit ls tail bs skip_blank skip n ->
  let rows := firstn n (wanted skip_blank skip (all_lines ls tail)) in
  csv_size (text ls tail) bs skip_blank skip (Some (Z.of_nat n)) = Ok (zlen rows) /\
  reads_slices rows (csv_read (text ls tail) bs skip_blank skip (Some (Z.of_nat n))).
Proof. intros ls tail bs sb skip n H1 H2 H3 H4 H5 H6. exact (csv_ok ls tail bs sb skip H1 H2 H3 H4 H5 (Some n) H6). Qed.
Print Assumptions C27_read_limited.

(* ... and a file without blank lines that fits into one block needs no more *)
Theorem C27_one_block : forall ls tail bs skip_blank skip,
  Forall no_newline ls -> no_newline tail -> all_lines ls tail <> [] -> length (text ls tail) <= bs ->
  Forall (fun l => blank l = false) (all_lines ls tail) -> skip <= length (all_lines ls tail) ->
  let rows := skipn skip (all_lines ls tail) in
  csv_size (text ls tail) bs skip_blank skip None = Ok (zlen rows) /\
  reads_slices rows (csv_read (text ls tail) bs skip_blank skip None).
Proof. exact one_block_ok. Qed.
Print Assumptions C27_one_block.

(* every file is read as some lines and a rest without newlines *)
Theorem C27_every_file : forall f, exists ls tail, Forall no_newline ls /\ no_newline tail /\ f = text ls tail.
Proof. exact file_is_text. Qed.
Print Assumptions C27_every_file.

(* examples write a newline as a bar *)
Definition b_ (s : string) : bytes := map (fun c => if Ascii.eqb c "|"%char then nl else c) (list_ascii_of_string s).

Definition ls1 : list bytes := map b_ ["# a"; "1 2"; "33 44"; ""; "5 6"; "777 8"; "9 1"]%string.
Example C27_read_ex : text ls1 (b_ "2 3") = b_ "# a|1 2|33 44||5 6|777 8|9 1|2 3" /\
  csv_size (text ls1 (b_ "2 3")) 14 true 1 None = Ok 6%Z /\
  csv_read (text ls1 (b_ "2 3")) 14 true 1 None 1 6 2 = Ok (map b_ ["33 44"; "777 8"; "2 3"]%string) /\
  List.length (offsets (List.length (text ls1 (b_ "2 3"))) 14) = 3.
Proof. repeat split; vm_compute; reflexivity. Qed.
Example C27_regular_ex : regular ls1 (b_ "2 3") 14 true 1.
Proof.
  constructor.
  - vm_compute. reflexivity.
  - vm_compute. lia.
  - intros _ k l H Hb. do 8 (destruct k as [|k]; [vm_compute in H; injection H as <-; vm_compute in Hb; first [discriminate Hb|
       split; [reflexivity|]; split; [lia|]; split; [intros [_ [_ G]]; apply G; vm_compute; reflexivity|vm_compute; discriminate]]|]).
    vm_compute in H. destruct k; discriminate H.
Qed.
(* skipping more than the first block *)
Example C27_skip_ex : csv_size (text ls1 (b_ "2 3")) 14 false 6 None = Ok 2%Z /\
  csv_read (text ls1 (b_ "2 3")) 14 false 6 None 0 2 1 = Ok (map b_ ["9 1"; "2 3"]%string).
Proof. split; vm_compute; reflexivity. Qed.
Example C27_read_limited_ex :
  csv_size (text ls1 (b_ "2 3")) 14 true 1 (Some 4%Z) = Ok 4%Z /\
  csv_read (text ls1 (b_ "2 3")) 14 true 1 (Some 4%Z) 0 4 1 = Ok (map b_ ["1 2"; "33 44"; "5 6"; "777 8"]%string) /\
  clear_limit ls1 (b_ "2 3") 14 true 1 4.
Proof.
  split; [vm_compute; reflexivity|]. split; [vm_compute; reflexivity|]. split; [lia|]. split; [|vm_compute; intros _ G; discriminate G].
  intros k [H1 [H2 H3]]. vm_compute in H2. do 8 (destruct k as [|k]; [vm_compute in *; try (apply H3; reflexivity); try discriminate; try lia|]). lia.
Qed.
Example C27_one_block_ex : csv_read (text ls1 []) 100 false 1 None 0 2 1 = Ok (map b_ ["1 2"; "33 44"]%string).
Proof. vm_compute. reflexivity. Qed.

(* ---- C126: the last line may begin anywhere: a row is counted that cannot be read ---- *)
Theorem C126_straddling_line_refuted : exists ls bs, Forall no_newline ls /\ 1 <= bs /\ Forall (fun l => blank l = false) ls /\
  csv_size (text ls []) bs true 0 None = Ok (zlen ls + 1)%Z /\
  csv_read (text ls []) bs true 0 None 0 (zlen ls + 1) 1 = Ok ls.
Proof.
  exists (map b_ ["1 2"; "3 4"; "55 66"]%string), 11. split; [repeat constructor; vm_compute; intuition discriminate|]. split; [lia|].
  split; [repeat constructor|]. split; vm_compute; reflexivity.
Qed.
Print Assumptions C126_straddling_line_refuted.

(* ---- C127: an unterminated last line is counted but may be lost ---- *)
Theorem C127_unterminated_line_refuted : exists ls tail bs, Forall no_newline ls /\ no_newline tail /\ 1 <= bs /\
  Forall (fun l => blank l = false) (all_lines ls tail) /\
  csv_size (text ls tail) bs true 0 None = Ok (zlen (all_lines ls tail)) /\
  csv_read (text ls tail) bs true 0 None 0 (zlen (all_lines ls tail)) 1 = Ok ls /\ tail <> [].
Proof.
  exists (map b_ ["1 2"; "3 4"]%string), (b_ "55 66"), 11. split; [repeat constructor; vm_compute; intuition discriminate|].
  split; [vm_compute; intuition discriminate|]. split; [lia|]. split; [repeat constructor|]. split; [vm_compute; reflexivity|]. split; [vm_compute; reflexivity|discriminate].
Qed.
Print Assumptions C127_unterminated_line_refuted.

(* ---- C128: size with nrows ---- *)
Theorem C128_limit_refuted : exists ls bs n, Forall no_newline ls /\ 1 <= bs /\ Forall (fun l => blank l = false) ls /\ regular ls [] bs true 0 /\
  csv_size (text ls []) bs true 0 (Some (Z.of_nat n)) = Ok (zlen ls) /\ (Z.of_nat n < zlen ls)%Z /\
  csv_read (text ls []) bs true 0 (Some (Z.of_nat n)) 0 (zlen ls) 1 = Ok (firstn n ls).
Proof.
  exists (map b_ ["1 2"; "3 4"; "5 6"; "7 8"]%string), 8, 3. split; [repeat constructor; vm_compute; intuition discriminate|]. split; [lia|].
  split; [repeat constructor|]. split.
  - constructor; [vm_compute; reflexivity|vm_compute; lia|]. intros _ k l H Hb. exfalso.
    do 4 (destruct k as [|k]; [vm_compute in H; injection H as <-; discriminate Hb|]). vm_compute in H. destruct k; discriminate H.
  - repeat split; vm_compute; reflexivity.
Qed.
Print Assumptions C128_limit_refuted.
Theorem C128_zero_refuted : exists ls bs, Forall no_newline ls /\ 1 <= bs /\
  csv_size (text ls []) bs true 0 (Some 0%Z) = Ok 2%Z /\ csv_read (text ls []) bs true 0 (Some 0%Z) 0 2 1 = Ok [].
Proof.
  exists (map b_ ["1 2"; "3 4"]%string), 100. split; [repeat constructor; vm_compute; intuition discriminate|]. split; [lia|]. split; vm_compute; reflexivity.
Qed.
Print Assumptions C128_zero_refuted.

(* ---- C129: skipping more rows than there are gives a negative size ---- *)
Theorem C129_skip_refuted : exists ls bs skip, Forall no_newline ls /\ length (text ls []) <= bs /\ Forall (fun l => blank l = false) ls /\
  skipn skip ls = [] /\ csv_size (text ls []) bs true skip None = Ok (-1)%Z.
Proof.
  exists (map b_ ["1 2"; "3 4"]%string), 100, 3. split; [repeat constructor; vm_compute; intuition discriminate|]. split; [vm_compute; lia|].
  split; [repeat constructor|]. split; vm_compute; reflexivity.
Qed.
Print Assumptions C129_skip_refuted.

(* ---- C130: blank lines: two in a row, of white space, at the start of a block ---- *)
Theorem C130_double_blank_refuted : exists ls, Forall no_newline ls /\
  csv_size (text ls []) 100 true 0 None <> Ok (zlen (wanted true 0 ls)) /\
  csv_read (text ls []) 100 true 0 None 0 (zlen ls - 1) 1 = Ok (wanted true 0 ls).
Proof.
  exists (map b_ ["1 2"; ""; ""; "3 4"]%string). split; [repeat constructor; vm_compute; intuition discriminate|]. split; vm_compute; [discriminate|reflexivity].
Qed.
Print Assumptions C130_double_blank_refuted.
Theorem C130_white_space_refuted : exists ls, Forall no_newline ls /\ csv_size (text ls []) 100 true 0 None <> Ok (zlen (wanted true 0 ls)).
Proof.
  exists (map b_ ["1 2"; " "; "3 4"]%string). split; [repeat constructor; vm_compute; intuition discriminate|]. vm_compute; discriminate.
Qed.
Print Assumptions C130_white_space_refuted.
Theorem C130_blank_first_refuted : exists ls bs, Forall no_newline ls /\ 1 <= bs /\ Forall (fun l => blank l = true -> l = []) ls /\
  csv_size (text ls []) 100 true 0 None = Ok (zlen (wanted true 0 ls)) /\
  csv_size (text ls []) bs true 0 None <> Ok (zlen (wanted true 0 ls)).
Proof.
  exists (map b_ ["1 2"; ""; "3 4"]%string), 3. split; [repeat constructor; vm_compute; intuition discriminate|]. split; [lia|].
  split; [repeat constructor; vm_compute; discriminate|]. split; vm_compute; [reflexivity|discriminate].
Qed.
Print Assumptions C130_blank_first_refuted.
