(* Proofs about the columns of text files. *)
From Coq Require Import Ascii.
From Verif Require Import Base BaseProofs Num IoModel IoSpec IoProofs CsvModel CsvSpec CsvProofs CsvMore CtyModel CtySpec.
From Coq Require Import String.
Local Open Scope nat_scope.
Local Notation length := List.length.
Local Notation concat := List.concat.

(* ---- lists ---- *)
Lemma select_map {X Y} (g : X -> Y) l idx : select (map g l) idx = map g (select l idx).
Proof.
  unfold select. induction idx as [|i idx IH]; [reflexivity|]. cbn [flat_map]. rewrite IH, map_app. f_equal.
  assert (E : znth (map g l) i = option_map g (znth l i)) by (unfold znth; destruct (i <? 0)%Z; [reflexivity|apply nth_error_map']). rewrite E. destruct (znth l i); reflexivity.
Qed.
Lemma py_slice_map {X Y} (g : X -> Y) l a b s : py_slice (map g l) a b s = let! r := py_slice l a b s in Ok (map g r).
Proof.
  unfold py_slice. assert (E : zlen (map g l) = zlen l) by (unfold zlen; rewrite map_length; reflexivity). rewrite E. destruct (slice_indices a b s (zlen l)) as [[[x y] z]|]; cbn [rbind]; [rewrite select_map; reflexivity|reflexivity].
Qed.
Lemma select_in {X} (l : list X) idx x : In x (select l idx) -> In x l.
Proof.
  unfold select. intros H. apply in_flat_map in H. destruct H as (i & _ & H). destruct (znth l i) as [y|] eqn:E; [|destruct H]. destruct H as [<-|[]]. unfold znth in E. destruct (i <? 0)%Z; [discriminate|]. exact (nth_error_In _ _ E).
Qed.
Lemma rall_ok {X Y} (g : X -> res Y) (h : X -> Y) l : (forall x, In x l -> g x = Ok (h x)) -> rall (map g l) = Ok (map h l).
Proof.
  induction l as [|x l IH]; intros H; [reflexivity|]. cbn [map rall]. rewrite (H x (or_introl eq_refl)). cbn [rbind]. rewrite IH by (intros; apply H; right; assumption). reflexivity.
Qed.
Lemma rall_forall2 {X Y} (g : X -> res Y) l ys : rall (map g l) = Ok ys -> Forall2 (fun x y => g x = Ok y) l ys.
Proof.
  revert ys. induction l as [|x l IH]; intros ys H; cbn [map rall] in H; [assert (ys = []) by congruence; subst; constructor|].
  destruct (g x) as [y|] eqn:E; [|discriminate H]. cbn [rbind] in H. destruct (rall (map g l)) as [zs|]; [|discriminate H]. cbn [rbind] in H. assert (ys = y :: zs) by congruence. subst. constructor; [exact E|apply IH; reflexivity].
Qed.
Lemma forall2_rall {X Y} (g : X -> res Y) l ys : Forall2 (fun x y => g x = Ok y) l ys -> rall (map g l) = Ok ys.
Proof. induction 1 as [|x y l ys H _ IH]; [reflexivity|]. cbn [map rall]. rewrite H. cbn [rbind]. rewrite IH. reflexivity. Qed.
Lemma mem_in k l : memS k l = true <-> In k l.
Proof. unfold memS. rewrite existsb_exists. split; [intros (x & H & E); apply String.eqb_eq in E; subst; exact H|intros H; exists k; split; [exact H|apply String.eqb_refl]]. Qed.
Lemma repeated_nodup l : repeated l = false <-> NoDup l.
Proof.
  induction l as [|x l IH]; cbn [repeated]; [split; [constructor|reflexivity]|]. rewrite orb_false_iff, IH. split.
  - intros [H1 H2]. constructor; [|exact H2]. intros I. apply mem_in in I. congruence.
  - intros H. inversion_clear H. split; [|assumption]. apply not_true_iff_false. intros E. apply mem_in in E. contradiction.
Qed.
Lemma position_some k l j : position k l = Some j -> nth_error l j = Some k.
Proof.
  revert j. induction l as [|x l IH]; intros j H; cbn [position] in H; [discriminate|]. destruct (String.eqb_spec x k) as [->|].
  - assert (j = 0) by congruence. subst. reflexivity.
  - destruct (position k l) as [i|]; cbn [option_map] in H; [|discriminate]. assert (j = S i) by congruence. subst. exact (IH i eq_refl).
Qed.
Lemma position_in k l : In k l -> exists j, position k l = Some j.
Proof.
  induction l as [|x l IH]; [intros []|]. cbn [position]. destruct (String.eqb_spec x k); [exists 0; reflexivity|]. intros [H|H]; [congruence|]. destruct (IH H) as [j ->]. exists (S j). reflexivity.
Qed.
Lemma nodup_nth {X} (l : list X) i j x : NoDup l -> nth_error l i = Some x -> nth_error l j = Some x -> i = j.
Proof. intros H E F. apply (proj1 (NoDup_nth_error l) H); [apply nth_error_Some; congruence|congruence]. Qed.
Lemma look_in {X} (d : list (string * X)) k v : look d k = Some v -> In (k, v) d.
Proof.
  unfold look. destruct (find _ d) as [[a b]|] eqn:E; [|discriminate]. cbn [option_map snd]. intros H. apply find_some in E. destruct E as [E F]. cbn [fst] in F. apply String.eqb_eq in F. assert (b = v) by congruence. subst. exact E.
Qed.
Lemma look_none {X} (d : list (string * X)) k v : look d k = None -> ~ In (k, v) d.
Proof.
  unfold look. destruct (find _ d) as [e|] eqn:E; [discriminate|]. intros _ B. assert (F := List.find_none _ _ E _ B). cbn [fst] in F. rewrite String.eqb_refl in F. discriminate F.
Qed.
Lemma look_map {X} (f : string -> X) l k : In k l -> look (map (fun n => (n, f n)) l) k = Some (f k).
Proof.
  unfold look. induction l as [|x l IH]; [intros []|]. cbn [map find fst]. destruct (String.eqb_spec x k) as [->|]; [reflexivity|]. intros [H|H]; [congruence|exact (IH H)].
Qed.
Lemma conv_denotes t x v : t <> Obj -> (conv t x = Ok v <-> denotes t x v).
Proof.
  intros NO. split.
  - destruct t, x; cbn [conv]; intros H; try discriminate; try congruence; match type of H with Ok ?a = _ => assert (v = a) by congruence; subst v end; constructor.
  - intros H. inversion H; reflexivity.
Qed.
Lemma denotes_conv t x v : denotes t x v -> conv t x = Ok v.
Proof. intros H. inversion H; reflexivity. Qed.

(* ---- opening ---- *)
Section Cty.
Variable fields : bytes -> list tok.
Lemma field_of_spec names line name x : NoDup names -> In name names -> (field_of fields names line name = x <-> field fields names line name x).
Proof.
  intros ND I. unfold field_of, field. destruct (position_in name names I) as [j J]. rewrite J. apply position_some in J. split.
  - intros <-. exists j. split; [exact J|reflexivity].
  - intros (i & I1 & ->). rewrite (nodup_nth names i j name ND I1 J). reflexivity.
Qed.
Lemma lines_text ls tail : Forall no_newline ls -> no_newline tail -> lines (text ls tail) = all_lines ls tail.
Proof. intros H1 H2. rewrite <- (whole_pieces ls tail), <- (pieces_lines ls tail). apply lines_whole. apply pieces_well; assumption. Qed.
Lemma first_rows_ok ls tail c : Forall no_newline ls -> no_newline tail -> read_csv (g_skip_blank c) (g_skiprows c) (verify_rows c) (text ls tail) = first_rows ls tail c.
Proof. intros H1 H2. unfold read_csv, first_rows, verify_rows. rewrite lines_text by assumption. unfold wanted. destruct (g_nrows c) as [[n|]|]; reflexivity. Qed.
Lemma forallb_mem us names : forallb (fun n => memS n names) us = true <-> incl us names.
Proof. rewrite forallb_forall. unfold incl. split; intros H a A; [apply mem_in|apply mem_in]; apply H; exact A. Qed.

Lemma verify_ok file names c rows : read_csv (g_skip_blank c) (g_skiprows c) (verify_rows c) file = rows ->
  (verify_data fields file names c = Err ValueError \/
   ((exists first rest, rows = first :: rest /\ length (fields first) = length names) /\ NoDup names /\ incl (used names c) names /\
    (forall r n x, In r rows -> In n (used names c) -> field fields names r n x -> number x) /\
    verify_data fields file names c = Ok (map (fun n => (n, infer (map (fun r => field_of fields names r n) rows))) (used names c)))) /\
  ((exists first rest, rows = first :: rest /\ length (fields first) = length names) -> NoDup names -> incl (used names c) names ->
    (forall r n x, In r rows -> In n (used names c) -> field fields names r n x -> number x) ->
    verify_data fields file names c = Ok (map (fun n => (n, infer (map (fun r => field_of fields names r n) rows))) (used names c))).
Proof.
  intros ER. unfold verify_data. rewrite ER. fold (used names c). destruct rows as [|first rest]; [split; [left; reflexivity|intros (f & r & E & _); discriminate]|].
  destruct (Nat.eqb_spec (length (fields first)) (length names)) as [EL|NL]; cbn [negb]; [|split; [left; reflexivity|intros (f & r & E & F); exfalso; apply NL; assert (first = f) by congruence; subst; exact F]].
  destruct (repeated names) eqn:ERp; [split; [left; reflexivity|intros _ ND; apply repeated_nodup in ND; congruence]|]. apply repeated_nodup in ERp.
  destruct (forallb (fun n => memS n names) (used names c)) eqn:EI; cbn [negb]; [|split; [left; reflexivity|intros _ _ I; apply forallb_mem in I; congruence]]. apply forallb_mem in EI.
  set (rows := first :: rest) in *.
  assert (Q : forall p, existsb (fun n => existsb p (map (fun r => field_of fields names r n) rows)) (used names c) = true <-> exists r n, In r rows /\ In n (used names c) /\ p (field_of fields names r n) = true).
  { intros p. rewrite existsb_exists. split.
    - intros (n & N & H). apply existsb_exists in H. destruct H as (x & X & H). apply in_map_iff in X. destruct X as (r & <- & R). exists r, n. auto.
    - intros (r & n & R & N & H). exists n. split; [exact N|]. apply existsb_exists. exists (field_of fields names r n). split; [apply (in_map (fun r => field_of fields names r n)); exact R|exact H]. }
  destruct (existsb (fun n => existsb is_miss (map (fun r => field_of fields names r n) rows)) (used names c)) eqn:EM.
  { split; [left; reflexivity|]. intros _ _ _ H. exfalso. apply Q in EM. destruct EM as (r & n & R & N & M). assert (U := H r n _ R N (proj1 (field_of_spec names r n _ ERp (EI n N)) eq_refl)). destruct (field_of fields names r n); [discriminate M|discriminate M|exact U|exact U]. }
  destruct (existsb (fun n => existsb is_text (map (fun r => field_of fields names r n) rows)) (used names c)) eqn:ET.
  { split; [left; reflexivity|]. intros _ _ _ H. exfalso. apply Q in ET. destruct ET as (r & n & R & N & M). assert (U := H r n _ R N (proj1 (field_of_spec names r n _ ERp (EI n N)) eq_refl)). destruct (field_of fields names r n); [discriminate M|discriminate M|exact U|exact U]. }
  split; [|reflexivity]. right. split; [exists first, rest; split; [reflexivity|exact EL]|]. split; [exact ERp|]. split; [exact EI|]. split; [|reflexivity].
  intros r n x R N F. apply (field_of_spec names r n x ERp (EI n N)) in F. subst x. destruct (field_of fields names r n) eqn:E; [exact I|exact I| |].
  - assert (B : existsb (fun n => existsb is_text (map (fun r => field_of fields names r n) rows)) (used names c) = true) by (apply Q; exists r, n; rewrite E; auto). congruence.
  - assert (B : existsb (fun n => existsb is_miss (map (fun r => field_of fields names r n) rows)) (used names c) = true) by (apply Q; exists r, n; rewrite E; auto). congruence.
Qed.
Lemma infer_number col : (forall x, In x col -> number x) -> (forall x, In x col -> integer x) /\ infer col = I8 \/ (exists x, In x col /\ ~ integer x) /\ infer col = F8.
Proof.
  intros H. unfold infer. assert (E : existsb is_text col = false). { apply not_true_iff_false. intros E. apply existsb_exists in E. destruct E as (x & X & T). specialize (H x X). destruct x; try discriminate T. exact H. }
  rewrite E. destruct (forallb is_int col) eqn:F.
  - left. split; [|reflexivity]. rewrite forallb_forall in F. intros x X. specialize (F x X). destruct x; [exact I|discriminate F..].
  - right. split; [|reflexivity]. clear H E. induction col as [|x col IH]; [discriminate|]. cbn [forallb] in F. destruct (is_int x) eqn:EX; cbn [andb] in F.
    + destruct (IH F) as (y & Y & N). exists y. split; [right; exact Y|exact N].
    + exists x. split; [left; reflexivity|]. intros B. destruct x; [discriminate EX|exact B..].
Qed.
Lemma csv_size_pos file bs sb skip n : (1 <= bs -> exists z, csv_size file bs sb skip n = Ok z) /\ (bs = 0 -> csv_size file bs sb skip n = Err ValueError).
Proof. unfold csv_size, make_partitions. split; [intros H; destruct bs; [lia|eexists; reflexivity]|intros ->; reflexivity]. Qed.

Definition nrows_of (c : config) : option Z := match g_nrows c with None => None | Some n => n end.
Lemma open_ok ls tail names bs d c : Forall no_newline ls -> no_newline tail ->
  let rows := first_rows ls tail c in
  let good := ~ refused c /\ 1 <= bs /\ (exists first rest, rows = first :: rest /\ length (fields first) = length names) /\ NoDup names /\ NoDup (used names c) /\ incl (used names c) names /\
    (forall r n x, In r rows -> In n (used names c) -> field fields names r n x -> number x) in
  (good -> exists v, open fields (text ls tail) names bs d c = Ok v) /\ (~ good -> open fields (text ls tail) names bs d c = Err ValueError) /\
  forall v, open fields (text ls tail) names bs d c = Ok v -> good /\ map fst (v_dtype v) = used names c /\ (forall n t, In (n, t) (v_dtype v) -> type_of fields names d rows n t) /\
    v_file v = text ls tail /\ v_bs v = bs /\ v_names v = names /\ v_config v = c /\ csv_size (text ls tail) bs (g_skip_blank c) (g_skiprows c) (nrows_of c) = Ok (v_size v).
Proof.
  intros H1 H2 rows good. assert (ER := first_rows_ok ls tail c H1 H2). fold rows in ER.
  destruct (verify_ok (text ls tail) names c rows ER) as [VA VB].
  set (types := map (fun n => (n, match match d with All t => Some t | Dict d => look d n end with Some t => t | None => infer (map (fun r => field_of fields names r n) rows) end)) (used names c)).
  (* whether a keyword is refused *)
  assert (RF : refused c \/ ~ refused c /\ open fields (text ls tail) names bs d c =
     let! inferred := verify_data fields (text ls tail) names c in
     let! ts := rall (map (fun n => match look (match d with All t => map (fun n => (n, t)) (used names c) | Dict d => d end) n with Some t => Ok (n, t) | None => match look inferred n with Some t => Ok (n, t) | None => Err ValueError end end) (used names c)) in
     if repeated (used names c) then Err ValueError else
     let! size := csv_size (text ls tail) bs (g_skip_blank c) (g_skiprows c) (nrows_of c) in
     Ok {| v_file := text ls tail; v_bs := bs; v_names := names; v_dtype := ts; v_config := c; v_size := size |}).
  { unfold refused, open. fold (used names c). fold (nrows_of c). destruct (g_index_col c); [left; auto|]. destruct (g_comment c); [left; auto|]. destruct (g_header c); [left; auto|]. destruct (g_skiprows_list c); [left; tauto|]. destruct (g_skipfooter c); [left; tauto|].
    right. split; [intuition discriminate|reflexivity]. }
  assert (RE : refused c -> open fields (text ls tail) names bs d c = Err ValueError).
  { clear. unfold refused, open. destruct (g_index_col c); [reflexivity|]. destruct (g_comment c); [reflexivity|]. destruct (g_header c); [reflexivity|]. destruct (g_skiprows_list c); [reflexivity|]. destruct (g_skipfooter c); [reflexivity|]. intuition discriminate. }
  assert (TY : forall ids, (forall n, In n (used names c) -> look ids n = Some (infer (map (fun r => field_of fields names r n) rows))) ->
     rall (map (fun n => match look (match d with All t => map (fun n => (n, t)) (used names c) | Dict d => d end) n with Some t => Ok (n, t) | None => match look ids n with Some t => Ok (n, t) | None => Err ValueError end end) (used names c)) = Ok types).
  { intros ids HI. unfold types. apply rall_ok. intros n N. destruct d as [t|dd]; [rewrite (look_map (fun _ => t)) by exact N; reflexivity|]. destruct (look dd n); [reflexivity|]. rewrite HI by exact N. reflexivity. }
  assert (LK : forall n, In n (used names c) -> look (map (fun n => (n, infer (map (fun r => field_of fields names r n) rows))) (used names c)) n = Some (infer (map (fun r => field_of fields names r n) rows))) by (intros n N; apply (look_map (fun n => infer (map (fun r => field_of fields names r n) rows))); exact N).
  assert (OK : good -> exists z, csv_size (text ls tail) bs (g_skip_blank c) (g_skiprows c) (nrows_of c) = Ok z /\ open fields (text ls tail) names bs d c = Ok {| v_file := text ls tail; v_bs := bs; v_names := names; v_dtype := types; v_config := c; v_size := z |}).
  { intros (G1 & G2 & G3 & G4 & G5 & G6 & G7). destruct RF as [B|[_ ->]]; [contradiction|]. rewrite (VB G3 G4 G6 G7). cbn [rbind]. rewrite (TY _ LK). cbn [rbind]. rewrite (proj2 (repeated_nodup _) G5).
    destruct (proj1 (csv_size_pos (text ls tail) bs (g_skip_blank c) (g_skiprows c) (nrows_of c)) G2) as [z Z]. exists z. rewrite Z. split; reflexivity. }
  assert (DEC : good \/ open fields (text ls tail) names bs d c = Err ValueError).
  { destruct RF as [B|[NR E]]; [right; exact (RE B)|]. destruct VA as [V|(G3 & G4 & G6 & G7 & V)]; [right; rewrite E, V; reflexivity|].
    destruct (repeated (used names c)) eqn:RP; [right; rewrite E, V; cbn [rbind]; rewrite (TY _ LK); reflexivity|]. apply repeated_nodup in RP.
    destruct bs as [|b]; [right; rewrite E, V; cbn [rbind]; rewrite (TY _ LK); cbn [rbind]; destruct (repeated (used names c)); [reflexivity|]; rewrite (proj2 (csv_size_pos _ 0 _ _ _) eq_refl); reflexivity|].
    left. split; [exact NR|]. split; [lia|]. split; [exact G3|]. split; [exact G4|]. split; [exact RP|]. split; [exact G6|exact G7]. }
  split; [intros G; destruct (OK G) as (z & _ & E); eexists; exact E|]. split; [intros NG; destruct DEC as [G|E]; [contradiction|exact E]|].
  intros v HV. destruct DEC as [G|E]; [|congruence]. split; [exact G|]. destruct (OK G) as (z & Z & E). assert (EV : v = {| v_file := text ls tail; v_bs := bs; v_names := names; v_dtype := types; v_config := c; v_size := z |}) by congruence. subst v. cbn [v_file v_bs v_names v_dtype v_config v_size].
  split; [unfold types; rewrite map_map; cbn [fst]; apply map_id|]. split; [|repeat split; exact Z].
  destruct G as (G1 & G2 & G3 & G4 & G5 & G6 & G7). intros n t T. unfold types in T. apply in_map_iff in T. destruct T as (m & T & M). assert (m = n) by congruence. subst m. apply (f_equal snd) in T. cbn [snd] in T. unfold type_of.
  destruct (match d with All t0 => Some t0 | Dict dd => look dd n end) as [t'|] eqn:EL; [left; destruct d as [t1|dd]; cbn [asked]; [congruence|rewrite <- T; exact (look_in _ _ _ EL)]|]. rewrite <- T.
  right. split; [destruct d as [t1|dd]; cbn [asked]; [discriminate EL|]; intros t' B; exact (look_none _ _ _ EL B)|].
  assert (SP := fun r x => field_of_spec names r n x G4 (G6 n M)).
  destruct (infer_number (map (fun r => field_of fields names r n) rows)) as [[A B]|[A B]].
  - intros x X. apply in_map_iff in X. destruct X as (r & X & R). apply (G7 r n x R M). apply SP. exact X.
  - left. split; [|exact B]. intros r x R X. apply SP in X. apply A. apply in_map_iff. exists r. split; [exact X|exact R].
  - right. split; [|exact B]. destruct A as (x & X & NI). apply in_map_iff in X. destruct X as (r & X & R). exists r, x. split; [exact R|]. split; [apply SP; exact X|exact NI].
Qed.

(* ---- reading ---- *)
Lemma types_eqb_refl l : types_eqb l l = true.
Proof. induction l as [|[n t] l IH]; [reflexivity|]. cbn [types_eqb]. rewrite String.eqb_refl, IH. unfold ty_eqb. destruct (ty_eq_dec t t); [reflexivity|congruence]. Qed.
Lemma same_types_const {X} (T : list (string * ty)) (l : list X) : same_types (map (fun _ => T) l) = true.
Proof. destruct l as [|x l]; [reflexivity|]. cbn [map same_types]. apply forallb_forall. intros t H. apply in_map_iff in H. destruct H as (y & <- & _). apply types_eqb_refl. Qed.
Lemma rall_map_bind {X Y W} (F : X -> res Y) (k : Y -> W) l : rall (map (fun x => let! y := F x in Ok (k y)) l) = let! ys := rall (map F l) in Ok (map k ys).
Proof.
  induction l as [|x l IH]; [reflexivity|]. cbn [map rall]. destruct (F x); cbn [rbind]; [|reflexivity]. rewrite IH. destruct (rall (map F l)); reflexivity.
Qed.
Lemma rall_ext {X Y} (F G : X -> res Y) l : (forall x, In x l -> F x = G x) -> rall (map F l) = rall (map G l).
Proof. intros H. f_equal. apply map_ext_in. exact H. Qed.
Lemma read_typed v columns (g h : bytes -> list cell) ps ss a b s : g_c (v_config v) = true ->
  make_partitions (v_file v) (v_bs v) (g_skip_blank (v_config v)) (g_skiprows (v_config v)) (nrows_of (v_config v)) = Ok (ps, ss) ->
  (forall p r, In p ps -> In r (part_value (v_file v) (v_bs v) (g_skip_blank (v_config v)) p) ->
     rall (map (fun nt => conv (snd nt) (field_of fields (v_names v) r (fst nt))) (v_dtype v)) = Ok (g r) /\ pick (v_dtype v) columns (g r) = Ok (h r)) ->
  incl columns (map fst (v_dtype v)) ->
  read fields v columns a b s = let! out := csv_read (v_file v) (v_bs v) (g_skip_blank (v_config v)) (g_skiprows (v_config v)) (nrows_of (v_config v)) a b s in Ok (map h out).
Proof.
  intros HC HM HR HI. unfold read, csv_read. fold (nrows_of (v_config v)). rewrite HM. cbn [rbind fst snd].
  rewrite (rall_ext _ (fun fnum => let! y := (let! sl := global_to_local_slice ss a b fnum in match nth_error ps fnum with Some p => py_slice (part_value (v_file v) (v_bs v) (g_skip_blank (v_config v)) p) (Some (fst sl)) (Some (snd sl)) None | None => Err IndexError end) in Ok (v_dtype v, map h y))).
  2:{ intros k _. destruct (global_to_local_slice ss a b k) as [sl|]; cbn [rbind]; [|reflexivity]. destruct (nth_error ps k) as [p|] eqn:EP; [|reflexivity]. apply nth_error_In in EP.
      set (rows := part_value _ _ _ p) in *. unfold table. rewrite HC. rewrite (rall_ok _ g) by (intros r R; exact (proj1 (HR p r EP R))). cbn [rbind fst snd].
      rewrite (proj2 (forallb_mem columns (map fst (v_dtype v))) HI). cbn [negb]. rewrite py_slice_map. destruct (py_slice rows (Some (fst sl)) (Some (snd sl)) None) as [out|] eqn:ES; cbn [rbind]; [|reflexivity].
      rewrite (rall_ok _ (fun cells => match pick (v_dtype v) columns cells with Ok y => y | Err _ => [] end)).
      - cbn [rbind]. f_equal. f_equal. rewrite map_map. apply map_ext_in. intros r R. unfold py_slice in ES. destruct (slice_indices _ _ _ _) as [[[x y] z]|]; [|discriminate ES]. cbn [rbind] in ES. assert (EO : out = select rows (py_range x y z)) by congruence. subst out. apply select_in in R.
        rewrite (proj2 (HR p r EP R)). reflexivity.
      - intros cells C. apply in_map_iff in C. destruct C as (r & <- & R). unfold py_slice in ES. destruct (slice_indices _ _ _ _) as [[[x y] z]|]; [|discriminate ES]. cbn [rbind] in ES. assert (EO : out = select rows (py_range x y z)) by congruence. subst out. apply select_in in R.
        rewrite (proj2 (HR p r EP R)). reflexivity. }
  rewrite (rall_map_bind _ (fun y => (v_dtype v, map h y))). destruct (rall _) as [parts|]; cbn [rbind]; [|reflexivity].
  rewrite !map_map. cbn [fst snd]. rewrite same_types_const. cbn [negb].
  assert (E : concat (map (fun x => map h x) parts) = map h (concat parts)) by (clear; induction parts as [|x l IH]; [reflexivity|]; cbn [map concat]; rewrite IH, map_app; reflexivity).
  rewrite E, py_slice_map. reflexivity.
Qed.
Lemma rows_at_map {X Y} (h : X -> Y) rows idx out : rows_at rows idx out -> rows_at (map h rows) idx (map h out).
Proof.
  unfold rows_at. intros H. induction H as [|i x idx out [P H] _ IH]; [constructor|]. cbn [map]. constructor; [|exact IH]. split; [exact P|]. rewrite nth_error_map', H. reflexivity.
Qed.
Lemma values_ok ls tail bs names d c v columns : readable ls tail bs c -> g_c c = true -> (g_skiprows c = 0 \/ start_of ls (g_skiprows c - 1) <= bs) ->
  open fields (text ls tail) names bs d c = Ok v -> let rows := all_rows ls tail c in
  (forall r n t x, In r rows -> In (n, t) (v_dtype v) -> field fields names r n x -> exists y, denotes t x y) -> incl columns (map fst (v_dtype v)) ->
  v_size v = zlen rows /\ exists vals, Forall2 (fun r cells => Forall2 (fun n y => exists t x, In (n, t) (v_dtype v) /\ field fields names r n x /\ denotes t x y) columns cells) rows vals /\
    reads_slices vals (read fields v columns).
Proof.
  intros (R1 & R2 & R3 & R4 & R5 & R6) HC HK HO rows HD HI. destruct (open_ok ls tail names bs d c R1 R2) as (_ & _ & OV). destruct (OV v HO) as ((_ & _ & _ & ND & NU & IU & _) & EF & _ & E1 & E2 & E3 & E4 & E5). clear OV.
  set (n' := match g_nrows c with Some (Some n) => Some (Z.to_nat n) | _ => None end).
  assert (EN : option_map Z.of_nat n' = nrows_of c). { unfold n', nrows_of. destruct (g_nrows c) as [[n|]|]; [|reflexivity..]. destruct R6. cbn [option_map]. rewrite Z2Nat.id by assumption. reflexivity. }
  assert (EA : answer ls tail (g_skip_blank c) (g_skiprows c) n' = rows). { unfold answer, n', rows, all_rows. destruct (g_nrows c) as [[n|]|]; reflexivity. }
  assert (EL : match n' with None => True | Some n => clear_limit ls tail bs (g_skip_blank c) (g_skiprows c) n end). { unfold n'. destruct (g_nrows c) as [[n|]|]; [apply R6|exact I..]. }
  destruct (csv_ok ls tail bs (g_skip_blank c) (g_skiprows c) R1 R2 R3 R4 R5 n' EL) as [CS CR]. rewrite EN, EA in CS, CR.
  split; [congruence|].
  assert (HS : g_skiprows c <= before (pieces ls tail) (1 * bs)).
  { destruct HK as [HK|HK]; [lia|]. destruct (Nat.le_gt_cases (g_skiprows c) (before (pieces ls tail) (1 * bs))) as [L|L]; [exact L|]. exfalso.
    assert (W := reg_skip _ _ _ _ _ R5). assert (WL := w_length ls tail bs (g_skip_blank c) (g_skiprows c) R1 R2 R3 R4 R5).
    assert (G := K_gt ls tail bs (g_skip_blank c) (g_skiprows c) R1 R2 R3 R4 R5 1 (g_skiprows c - 1) ltac:(lia) ltac:(lia) ltac:(lia)). rewrite (w_off ls tail bs (g_skip_blank c) (g_skiprows c) R1 R2 R3 R4 R5) in G by lia. lia. }
  destruct (partitions_ok ls tail bs (g_skip_blank c) (g_skiprows c) R1 R2 R3 R4 R5 HS n' EL) as (ps & P1 & P2 & P3). rewrite EN in P1. rewrite EA in P3.
  set (T := v_dtype v) in *.
  set (g := fun r => map (fun nt => match conv (snd nt) (field_of fields names r (fst nt)) with Ok x => x | Err _ => VObj TMiss end) T).
  set (h := fun r => map (fun n => match position n (map fst T) with Some j => nth j (g r) (VObj TMiss) | None => VObj TMiss end) columns).
  assert (CV : forall r nt, In r rows -> In nt T -> exists y, conv (snd nt) (field_of fields names r (fst nt)) = Ok y /\ denotes (snd nt) (field_of fields names r (fst nt)) y).
  { intros r [n t] RR NT. cbn [fst snd]. assert (IN : In n names) by (apply IU; rewrite <- EF; apply (in_map fst T (n, t)); exact NT).
    destruct (HD r n t _ RR NT (proj1 (field_of_spec names r n _ ND IN) eq_refl)) as [y Y]. exists y. split; [exact (denotes_conv _ _ _ Y)|exact Y]. }
  assert (PK : forall r, In r rows -> pick T columns (g r) = Ok (h r)).
  { intros r RR. unfold pick, h. apply rall_ok. intros n N. destruct (position_in n (map fst T) (HI n N)) as [j J]. rewrite J. apply position_some in J. assert (LJ : j < length (map fst T)) by (apply nth_error_Some; congruence). rewrite map_length in LJ.
    assert (LG : length (g r) = length T) by (unfold g; apply map_length). rewrite (nth_error_nth' (g r) (VObj TMiss)) by lia. reflexivity. }
  exists (map h rows). split.
  - assert (G : forall l, incl l rows -> Forall2 (fun r cells => Forall2 (fun n y => exists t x, In (n, t) T /\ field fields names r n x /\ denotes t x y) columns cells) l (map h l)).
    { induction l as [|r l IH]; intros L; [constructor|]. cbn [map]. constructor; [|apply IH; intros x X; apply L; right; exact X]. assert (RR : In r rows) by (apply L; left; reflexivity).
      unfold h. assert (K : forall cs, incl cs (map fst T) -> Forall2 (fun n y => exists t x, In (n, t) T /\ field fields names r n x /\ denotes t x y) cs (map (fun n => match position n (map fst T) with Some j => nth j (g r) (VObj TMiss) | None => VObj TMiss end) cs)).
      { induction cs as [|n cs IHc]; intros LC; [constructor|]. cbn [map]. constructor; [|apply IHc; intros x X; apply LC; right; exact X].
        destruct (position_in n (map fst T) (LC n (or_introl eq_refl))) as [j J]. rewrite J. apply position_some in J. rewrite nth_error_map' in J. destruct (nth_error T j) as [nt|] eqn:EJ; [|discriminate J]. cbn [option_map] in J. assert (FN : fst nt = n) by congruence.
        destruct (CV r nt RR (nth_error_In _ _ EJ)) as (y & Y1 & Y2). exists (snd nt), (field_of fields names r n). split; [rewrite <- FN; rewrite <- surjective_pairing; exact (nth_error_In _ _ EJ)|].
        assert (IN : In n names) by (apply IU; rewrite <- EF; rewrite <- FN; apply in_map; exact (nth_error_In _ _ EJ)).
        split; [apply field_of_spec; [exact ND|exact IN|reflexivity]|]. unfold g.
        assert (EG : nth_error (map (fun nt => match conv (snd nt) (field_of fields names r (fst nt)) with Ok x => x | Err _ => VObj TMiss end) T) j = Some y) by (rewrite nth_error_map', EJ; cbn [option_map]; rewrite Y1; reflexivity).
        rewrite (nth_error_nth _ _ _ EG). rewrite <- FN. exact Y2. }
      apply K. exact HI. }
    apply G. apply incl_refl.
  - intros a b s A B S0. unfold zlen in B. rewrite map_length in B. destruct (CR a b s A B S0) as (out & O1 & O2). exists (map h out). split; [|apply rows_at_map; exact O2].
    rewrite (read_typed v columns g h ps (map zlen (map (part_value (text ls tail) bs (g_skip_blank c)) ps))).
    + rewrite E1, E2, E4, O1. reflexivity.
    + rewrite E4. exact HC.
    + rewrite E1, E2, E4. exact P1.
    + rewrite E1, E2, E3, E4. intros p r P RR. assert (IR : In r rows) by (rewrite <- P3; apply in_concat; exists (part_value (text ls tail) bs (g_skip_blank c) p); split; [apply in_map; exact P|exact RR]).
      split; [|exact (PK r IR)]. unfold g. apply rall_ok. intros nt NT. destruct (CV r nt IR NT) as (y & Y & _). rewrite Y. reflexivity.
    + exact HI.
Qed.
End Cty.
