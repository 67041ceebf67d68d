From Verif Require Import Base.
From Coq Require Import String Permutation.
From Verif Require Import RanksModel RanksSpec RanksProps SaveModel SaveSpec.
Local Open Scope nat_scope.
Local Notation length := List.length.

Lemma sumn_app a b : sumn (a ++ b) = sumn a + sumn b.
Proof. induction a as [|x a IH]; [reflexivity|]. cbn [app sumn fold_right] in *. fold (sumn a) (sumn (a ++ b)) in *. lia. Qed.
Lemma length_concat {A} (l : list (list A)) : length (List.concat l) = sumn (map (@length A) l).
Proof. induction l as [|a l IH]; [reflexivity|]. cbn [List.concat map sumn fold_right]. rewrite app_length, IH. reflexivity. Qed.

(* ---- writing ---- *)
Section Write.
Context {V : Type}.
Lemma nth_firstn (l : list V) n i : i < n -> nth_error (firstn n l) i = nth_error l i.
Proof. revert l i. induction n as [|n IH]; intros l i H; [lia|]. destruct l as [|a l]; [destruct i; reflexivity|]. destruct i as [|i]; [reflexivity|]. cbn. apply IH. lia. Qed.
Lemma nth_skipn (l : list V) n i : nth_error (skipn n l) i = nth_error l (n + i).
Proof. revert l. induction n as [|n IH]; intros l; [reflexivity|]. destruct l as [|a l]; [destruct i; reflexivity|]. cbn. apply IH. Qed.
Lemma block_write_nth (b b' : list V) s v : block_write b s v = Ok b' -> length b' = length b /\
  forall i, nth_error b' i = if (s <=? i) && (i <? s + length v) then nth_error v (i - s) else nth_error b i.
Proof.
  unfold block_write. destruct (s + length v <=? length b) eqn:E; [|discriminate]. intros H. injection H as <-. apply Nat.leb_le in E. split.
  - rewrite !app_length, firstn_length, skipn_length. lia.
  - intros i. destruct (Nat.leb_spec s i); cbn [andb].
    + rewrite nth_error_app2; rewrite firstn_length, Nat.min_l by lia; [|lia]. destruct (Nat.ltb_spec i (s + length v)).
      * rewrite nth_error_app1 by lia. reflexivity.
      * rewrite nth_error_app2 by lia. rewrite nth_skipn. f_equal. lia.
    + rewrite nth_error_app1 by (rewrite firstn_length; lia). apply nth_firstn. lia.
Qed.
(* a write of a part of g at its place *)
Definition part_of (g : list V) (w : nat * nat * list V) : Prop := fst (fst w) + length (snd w) <= length g /\ snd w = firstn (length (snd w)) (skipn (fst (fst w)) g).
Definition within (w : nat * nat * list V) (i : nat) : Prop := fst (fst w) <= i < fst (fst w) + length (snd w).
Lemma apply_writes_ok g ws : forall b, length b = length g -> (forall w, In w ws -> part_of g w) ->
  exists b', apply_writes b ws = Ok b' /\ length b' = length g /\
    forall i, i < length g -> (nth_error b i = nth_error g i \/ exists w, In w ws /\ within w i) -> nth_error b' i = nth_error g i.
Proof.
  induction ws as [|[[s e] v] ws IH]; intros b Hb Hw.
  - exists b. split; [reflexivity|]. split; [exact Hb|]. intros i Hi [H|(w & [] & _)]. exact H.
  - destruct (Hw _ (or_introl eq_refl)) as [P1 P2]. cbn [fst snd] in P1, P2. cbn [apply_writes]. unfold wrapper_set. cbn [fst].
    rewrite Nat.min_l by lia.
    destruct (block_write b s v) as [b1|x] eqn:E.
    2:{ unfold block_write in E. destruct (Nat.leb_spec (s + length v) (length b)); [discriminate|lia]. }
    destruct (block_write_nth _ _ _ _ E) as [L1 N1]. cbn [rbind].
    destruct (IH b1) as (b' & E' & L' & N'); [lia|intros w Hi; apply Hw; right; exact Hi|]. exists b'. split; [exact E'|]. split; [exact L'|].
    intros i Hi H. apply N'; [exact Hi|]. rewrite N1. destruct ((s <=? i) && (i <? s + length v)) eqn:B.
    + left. apply andb_true_iff in B. destruct B as [B1 B2]. apply Nat.leb_le in B1. apply Nat.ltb_lt in B2.
      rewrite P2. rewrite nth_firstn by lia. rewrite nth_skipn. f_equal. lia.
    + destruct H as [H|(w & [<-|Hi'] & W)]; [left; exact H| |right; exists w; split; assumption].
      exfalso. unfold within in W. cbn [fst snd] in W. apply andb_false_iff in B. destruct B as [B|B]; [apply Nat.leb_gt in B|apply Nat.ltb_ge in B]; lia.
Qed.
Lemma chunk_slices_in cs : forall start w, In w (chunk_slices start cs) -> part_of (List.concat cs) (fst (fst w) - start, 0, snd w) /\ start <= fst (fst w).
Proof.
  induction cs as [|c cs IH]; intros start w H; [destruct H|]. cbn [chunk_slices] in H. destruct H as [<-|H].
  - cbn [fst snd List.concat part_of]. unfold part_of. cbn [fst snd]. rewrite Nat.sub_diag. cbn [skipn]. split; [|lia]. split; [rewrite app_length; lia|].
    rewrite firstn_app, Nat.sub_diag, firstn_O, app_nil_r, firstn_all. reflexivity.
  - destruct (IH _ _ H) as [[P1 P2] L]. cbn [fst snd List.concat] in *. split; [|lia]. unfold part_of. cbn [fst snd]. split; [rewrite app_length; lia|].
    rewrite P2 at 1. f_equal. replace (fst (fst w) - start) with (length c + (fst (fst w) - (start + length c))) by lia.
    rewrite skipn_app. rewrite (skipn_all2 c) by lia. cbn [app]. f_equal. lia.
Qed.
Lemma chunk_slices_cover cs : forall start i, start <= i < start + length (List.concat cs) -> exists w, In w (chunk_slices start cs) /\ within w i.
Proof.
  induction cs as [|c cs IH]; intros start i H; [cbn in H; lia|]. cbn [List.concat chunk_slices] in *. rewrite app_length in H.
  destruct (Nat.lt_ge_cases i (start + length c)) as [Q|Q].
  - eexists. split; [left; reflexivity|]. unfold within. cbn [fst snd]. lia.
  - destruct (IH (start + length c) i) as (w & Hw & W); [lia|]. exists w. split; [right; exact Hw|exact W].
Qed.
Lemma offset_length (parts : list (list (list V))) r : offset parts r = length (List.concat (map (@List.concat V) (firstn r parts))).
Proof. unfold offset. rewrite firstn_map, length_concat, map_map. f_equal. apply map_ext. intros a. rewrite length_concat. reflexivity. Qed.
Lemma total_length (parts : list (list (list V))) : total parts = length (rows parts).
Proof. unfold total, rows. rewrite length_concat, map_map. f_equal. apply map_ext. intros a. rewrite length_concat. reflexivity. Qed.
Lemma split_at (parts : list (list (list V))) r : r < length parts ->
  rows parts = List.concat (map (@List.concat V) (firstn r parts)) ++ List.concat (nth r parts []) ++ List.concat (map (@List.concat V) (skipn (S r) parts)).
Proof.
  intros H. unfold rows. assert (E : parts = firstn r parts ++ nth r parts [] :: skipn (S r) parts).
  { revert r H. induction parts as [|p parts IH]; intros r H; [cbn in H; lia|]. destruct r as [|r]; [reflexivity|]. cbn in *. f_equal. apply IH. lia. }
  rewrite E at 1. rewrite map_app, concat_app. reflexivity.
Qed.
Lemma all_writes_part (parts : list (list (list V))) w : In w (all_writes parts) -> part_of (rows parts) w.
Proof.
  unfold all_writes. rewrite in_flat_map. intros (r & Hr & H). apply in_seq in Hr. apply chunk_slices_in in H. destruct H as [[P1 P2] L]. cbn [fst snd] in P1, P2.
  rewrite offset_length in *. rewrite (split_at parts r) by lia. set (A := List.concat (map _ (firstn r parts))) in *. unfold part_of. split; [rewrite !app_length; lia|].
  rewrite P2 at 1. rewrite skipn_app. rewrite (skipn_all2 A) by lia. cbn [app]. rewrite skipn_app, firstn_app.
  replace (length (snd w) - length (skipn (fst (fst w) - length A) (List.concat (nth r parts [])))) with 0 by (rewrite skipn_length; lia).
  rewrite firstn_O, app_nil_r. reflexivity.
Qed.
Lemma all_writes_cover (parts : list (list (list V))) i : i < length (rows parts) -> exists w, In w (all_writes parts) /\ within w i.
Proof.
  intros H. rewrite <- total_length in H. unfold total in H.
  assert (G : exists r, r < length parts /\ offset parts r <= i < offset parts r + length (List.concat (nth r parts []))).
  { unfold offset. revert i H. induction parts as [|p parts IH]; intros i H; [cbn in H; lia|]. cbn [map sumn fold_right] in H.
    rewrite <- length_concat in H. destruct (Nat.lt_ge_cases i (length (List.concat p))) as [Q|Q].
    - exists 0. cbn. split; [lia|]. lia.
    - destruct (IH (i - length (List.concat p))) as (r & Hr & B); [fold (sumn (map (fun chunks : list (list V) => sumn (map (@length V) chunks)) parts)) in H; lia|].
      exists (S r). cbn [length nth map firstn sumn fold_right]. rewrite <- length_concat. split; [lia|].
      fold (sumn (firstn r (map (fun chunks : list (list V) => sumn (map (@length V) chunks)) parts))). lia. }
  destruct G as (r & Hr & B). destruct (chunk_slices_cover (nth r parts []) (offset parts r) i) as (w & Hw & W); [lia|]. exists w. split; [|exact W].
  apply in_flat_map. exists r. split; [apply in_seq; lia|exact Hw].
Qed.
Lemma nth_ext' (a b : list V) : length a = length b -> (forall i, i < length b -> nth_error a i = nth_error b i) -> a = b.
Proof.
  revert b. induction a as [|x a IH]; intros [|y b] L H; try discriminate; [reflexivity|].
  assert (E := H 0 ltac:(cbn; lia)). cbn in E. injection E as ->. f_equal. apply IH; [injection L; auto|]. intros i Hi. apply (H (S i)). cbn. lia.
Qed.
Lemma write_ok (parts : list (list (list V))) fill ws : length fill = total parts -> Permutation ws (all_writes parts) -> apply_writes fill ws = Ok (rows parts).
Proof.
  intros L P. rewrite total_length in L. destruct (apply_writes_ok (rows parts) ws fill L) as (b' & E & L' & N).
  - intros w Hw. apply all_writes_part. apply (Permutation_in _ P Hw).
  - rewrite E. f_equal. apply nth_ext'; [exact L'|]. intros i Hi. apply N; [exact Hi|]. right. destruct (all_writes_cover parts i Hi) as (w & Hw & W).
    exists w. split; [apply (Permutation_in _ (Permutation_sym P) Hw)|exact W].
Qed.
End Write.

(* ---- save ---- *)
Section SaveAll.
Context {V : Type}.
Variables (fill : nat -> list V) (schedule : string -> list (nat * nat * list V) -> list (nat * nat * list V)).
Hypothesis Hfill : forall n, length (fill n) = n.
Hypothesis Hsched : forall c ws, Permutation (schedule c ws) ws.
Lemma save_columns_ok (cols : list (column V)) :
  rall (map (fun cd => save_column fill schedule (fst cd) (snd cd)) (zipr cols (map c_name cols))) = Ok (map (fun c : column V => (c_name c, rows (c_parts c))) cols).
Proof using Hfill Hsched.
  induction cols as [|c cols IH]; [reflexivity|]. cbn [map zipr rall]. unfold save_column at 1. cbn [fst snd].
  rewrite (write_ok (c_parts c)); [|apply Hfill|apply Hsched]. cbn [rbind]. rewrite IH. reflexivity.
Qed.
Lemma get_cols_ok (cat : list (column V)) names : (forall s, In s names -> In s (map c_name cat)) ->
  exists cols, rall (map (get_col cat) names) = Ok cols /\ map c_name cols = names /\ forall c, In c cols -> In c cat.
Proof using.
  induction names as [|s names IH]; intros H; [exists []; split; [reflexivity|]; split; [reflexivity|intros c []]|].
  cbn [map rall]. unfold get_col at 1. destruct (find (fun c => String.eqb (c_name c) s) cat) as [c|] eqn:F.
  - apply find_some in F. destruct F as [Fi Fe]. apply String.eqb_eq in Fe. destruct (IH (fun s0 Hs => H s0 (or_intror Hs))) as (cols & E & N & I).
    exists (c :: cols). cbn [rbind]. rewrite E. split; [reflexivity|]. split; [cbn; rewrite N, Fe; reflexivity|]. intros c' [<-|Hc]; [exact Fi|apply I; exact Hc].
  - exfalso. specialize (H s (or_introl eq_refl)). apply in_map_iff in H. destruct H as (c & E & Hc). apply (find_none _ _ F) in Hc. rewrite E, String.eqb_refl in Hc. discriminate.
Qed.
End SaveAll.

Lemma find_nodup {B} (l : list (string * B)) x : NoDup (map fst l) -> In x l -> find (fun b => String.eqb (fst b) (fst x)) l = Some x.
Proof.
  induction l as [|y l IH]; intros N H; [destruct H|]. cbn [find]. cbn [map] in N. inversion N as [|? ? N1 N2]; subst. destruct H as [->|H].
  - rewrite String.eqb_refl. reflexivity.
  - destruct (String.eqb_spec (fst y) (fst x)) as [E|_]; [|apply IH; assumption]. exfalso. apply N1. rewrite E. apply in_map. exact H.
Qed.
Lemma NoDup_map_filter {A B} (f : A -> B) (g : A -> bool) l : NoDup (map f l) -> NoDup (map f (filter g l)).
Proof.
  induction l as [|a l IH]; intros N; [exact N|]. cbn [map filter] in *. inversion N as [|? ? N1 N2]; subst. destruct (g a); [|apply IH; exact N2].
  cbn [map]. constructor; [|apply IH; exact N2]. intros H. apply N1. apply in_map_iff in H. destruct H as (x & E & Hx). apply filter_In in Hx. apply in_map_iff. exists x. tauto.
Qed.
Lemma find_headers_in {V} (blocks : list (@block V)) h : In h (find_headers blocks) -> header_name h.
Proof. unfold find_headers. rewrite filter_In. intros [[<-|[<-|[<-|[]]]] _]; unfold header_name; tauto. Qed.
Lemma header_excluded {V} (blocks : list (@block V)) b : In b blocks -> header_name (fst b) -> existsb (String.eqb (fst b)) (find_headers blocks) = true.
Proof.
  intros H N. apply existsb_exists. exists (fst b). split; [|apply String.eqb_refl]. unfold find_headers. apply filter_In. split.
  - destruct N as [->|[->| ->]]; cbn; tauto.
  - apply existsb_exists. exists b. split; [exact H|apply String.eqb_refl].
Qed.
Lemma find_open {V} (blocks : list (@block V)) name : ~ header_name name ->
  find (fun b => String.eqb (fst b) name) (open_columns blocks) = find (fun b => String.eqb (fst b) name) blocks.
Proof.
  intros N. unfold open_columns. generalize (find_headers_in blocks). generalize (find_headers blocks). intros hs Hh.
  induction blocks as [|b bs IH]; [reflexivity|]. cbn [filter find]. destruct (String.eqb_spec (fst b) name) as [E|E].
  - assert (existsb (String.eqb (fst b)) hs = false) as ->.
    { destruct (existsb _ hs) eqn:X; [|reflexivity]. exfalso. apply existsb_exists in X. destruct X as (h & Hi & He). apply String.eqb_eq in He. apply N. rewrite <- E, He. apply Hh, Hi. }
    cbn [negb find]. rewrite (proj2 (String.eqb_eq _ _) E). reflexivity.
  - destruct (negb _); cbn [find]; [|exact IH]. apply String.eqb_neq in E. rewrite E. exact IH.
Qed.
Lemma find_open_header {V} (blocks : list (@block V)) name : header_name name -> find (fun b => String.eqb (fst b) name) (open_columns blocks) = None.
Proof.
  intros N. destruct (find (fun b => String.eqb (fst b) name) (open_columns blocks)) as [b|] eqn:F; [|reflexivity]. exfalso. apply find_some in F. destruct F as [Fi Fe]. apply String.eqb_eq in Fe. subst name.
  unfold open_columns in Fi. apply filter_In in Fi. destruct Fi as [Fi Fn]. rewrite (header_excluded blocks b Fi N) in Fn. discriminate.
Qed.

Lemma save_ok {V} (fill : nat -> list V) schedule cat columns header nranks :
  (forall n, length (fill n) = n) -> (forall c ws, Permutation (schedule c ws) ws) -> 1 <= nranks ->
  NoDup (map c_name cat) -> NoDup columns -> (forall s, In s columns -> In s (map c_name cat)) ->
  (forall h, header = Some h -> header_name h) ->
  (forall c, In c cat -> In (c_name c) columns -> c_default c = false -> ~ header_name (c_name c)) ->
  exists blocks, save fill schedule cat (Some columns) None header = Ok blocks /\
    (forall c, In c cat -> In (c_name c) columns -> c_default c = false ->
       exists parts, read_column blocks (c_name c) nranks = Some parts /\ List.concat parts = rows (c_parts c)) /\
    (forall name, (forall c, In c cat -> c_name c = name -> In name columns -> c_default c = true) -> read_column blocks name nranks = None).
Proof.
  intros Hfill Hsched Hr Hcat Hcols Hin Hhdr Hnh. unfold save.
  destruct (get_cols_ok cat columns Hin) as (cols & -> & Hn & Hc). cbn [rbind]. set (kept := filter (fun c => negb (c_default c)) cols).
  rewrite map_length, Nat.eqb_refl. cbn [negb]. rewrite (save_columns_ok fill schedule Hfill Hsched kept). cbn [rbind].
  set (blocks := map (fun c : column V => (c_name c, rows (c_parts c))) kept).
  assert (Nb : NoDup (map fst blocks)).
  { unfold blocks. rewrite map_map. cbn [fst]. apply NoDup_map_filter. change (NoDup (map c_name cols)). rewrite Hn. exact Hcols. }
  assert (Ik : forall c, In c cat -> In (c_name c) columns -> c_default c = false -> In (c_name c, rows (c_parts c)) blocks).
  { intros c H1 H2 H3. unfold blocks. apply in_map_iff. exists c. split; [reflexivity|]. apply filter_In. split; [|rewrite H3; reflexivity].
    rewrite <- Hn in H2. apply in_map_iff in H2. destruct H2 as (c' & E & Hc'). assert (c = c') as ->; [|exact Hc'].
    specialize (Hc c' Hc'). clear -Hcat H1 Hc E. induction cat as [|a cat IH]; [destruct H1|]. cbn in Hcat. inversion Hcat as [|? ? N1 N2]; subst.
    destruct H1 as [->|H1], Hc as [Hc|Hc]; [exact Hc| | |apply IH; assumption].
    - exfalso. apply N1. rewrite <- E. apply in_map. exact Hc.
    - subst a. exfalso. apply N1. rewrite E. apply in_map. exact H1. }
  assert (Kn : forall b, In b blocks -> exists c, In c cat /\ In (c_name c) columns /\ c_default c = false /\ b = (c_name c, rows (c_parts c))).
  { intros b Hb. unfold blocks in Hb. apply in_map_iff in Hb. destruct Hb as (c & <- & Hk). apply filter_In in Hk. destruct Hk as [Hk1 Hk2]. exists c.
    split; [apply Hc; exact Hk1|]. split; [rewrite <- Hn; apply in_map; exact Hk1|]. split; [destruct (c_default c); [discriminate|reflexivity]|reflexivity]. }
  assert (R : forall all, (forall name, ~ header_name name -> find (fun b => String.eqb (fst b) name) all = find (fun b => String.eqb (fst b) name) blocks) ->
    (forall c, In c cat -> In (c_name c) columns -> c_default c = false ->
       exists parts, read_column all (c_name c) nranks = Some parts /\ List.concat parts = rows (c_parts c)) /\
    (forall name, (forall c, In c cat -> c_name c = name -> In name columns -> c_default c = true) -> read_column all name nranks = None)).
  { intros all Hall. split.
    - intros c H1 H2 H3. unfold read_column. rewrite find_open by (apply (Hnh c H1 H2 H3)). rewrite Hall by (apply (Hnh c H1 H2 H3)).
      pose proof (find_nodup blocks _ Nb (Ik c H1 H2 H3)) as F. cbn [fst] in F. rewrite F. cbn [option_map snd].
      eexists. split; [reflexivity|]. apply (proj1 (C06_rows_once V (rows (c_parts c)) nranks Hr)).
    - intros name H. unfold read_column. assert (HH : header_name name \/ ~ header_name name).
      { unfold header_name. destruct (String.eqb_spec name "Header"); [left; tauto|]. destruct (String.eqb_spec name "header"); [left; tauto|]. destruct (String.eqb_spec name "."); [left; tauto|right; tauto]. }
      destruct HH as [HH|HH]; [rewrite find_open_header by exact HH; reflexivity|].
      rewrite find_open by exact HH. rewrite Hall by exact HH. destruct (find (fun b => String.eqb (fst b) name) blocks) as [b|] eqn:F; [|reflexivity]. exfalso. apply find_some in F. destruct F as [Fi Fe]. apply String.eqb_eq in Fe.
      destruct (Kn b Fi) as (c & K1 & K2 & K3 & ->). cbn [fst] in Fe. subst name. rewrite (H c K1 eq_refl K2) in K3. discriminate. }
  destruct header as [h|].
  - specialize (Hhdr h eq_refl). eexists. split; [reflexivity|]. apply R. intros name Hname. destruct (existsb _ blocks); [reflexivity|].
    clear -Hname Hhdr. induction blocks as [|b bs IH]; cbn [app find].
    + cbn [fst]. destruct (String.eqb_spec h name); [subst; contradiction|reflexivity].
    + destruct (String.eqb (fst b) name); [reflexivity|exact IH].
  - eexists. split; [reflexivity|]. apply R. reflexivity.
Qed.

(* ---- attributes ---- *)
Lemma substring_all s : substring 0 (String.length s) s = s.
Proof. induction s as [|c s IH]; [reflexivity|]. cbn. rewrite IH. reflexivity. Qed.
Lemma json_strip s : String.prefix json_prefix (json_prefix ++ s) = true /\ substring 7 (String.length (json_prefix ++ s) - 7) (json_prefix ++ s) = s.
Proof.
  split; [destruct s; reflexivity|]. unfold json_prefix. cbn [String.append String.length Nat.sub substring]. rewrite Nat.sub_0_r. apply substring_all.
Qed.
Lemma attrs_ok J (dumps : J -> option string) loads a :
  (forall j s, dumps j = Some s -> loads s = Ok (AObj j)) ->
  (forall s, a = AStr s -> String.prefix json_prefix s = false) -> (forall j, a = AObj j -> dumps j <> None) ->
  exists st b, save_attr dumps a = Ok st /\ load_attr loads st = Ok b /\ same_attr a b.
Proof.
  intros Hj Hs Ho. destruct a as [s|l|x|j]; cbn [save_attr].
  - exists (SStr s), (AStr s). cbn [load_attr]. rewrite (Hs s eq_refl). repeat split; reflexivity.
  - exists (SArr l), (AArr l). repeat split; reflexivity.
  - exists (SArr [x]), (AArr [x]). repeat split; reflexivity.
  - specialize (Ho j eq_refl). destruct (dumps j) as [s|] eqn:E; [|congruence]. exists (SStr (json_prefix ++ s)), (AObj j). split; [reflexivity|]. cbn [load_attr].
    destruct (json_strip s) as [-> ->]. split; [apply Hj, E|reflexivity].
Qed.

(* ---- ArrayCatalog ---- *)
Lemma dtype_eqb_refl {D} (deq : D -> D -> bool) a : (forall x, deq x x = true) -> dtype_eqb deq a a = true.
Proof.
  intros H. unfold dtype_eqb. rewrite Nat.eqb_refl. cbn [andb]. induction a as [|[s d] a IH]; [reflexivity|]. cbn. rewrite String.eqb_refl, H. exact IH.
Qed.
Lemma array_ok {D} (deq : D -> D -> bool) (datas : list (@adata D)) sizes dt : (forall x, deq x x = true) -> dt <> [] ->
  Forall2 (fun d n => map fst d = dt /\ forall c, In c d -> snd c = n) datas sizes -> ArrayCatalog deq datas = map Ok sizes.
Proof.
  intros Hd Hne HF. unfold ArrayCatalog.
  assert (Hdt : forall d, In d datas -> dtype_of d = dt).
  { intros d Hi. clear -HF Hi. induction HF as [|d' n ds ns [H _] HF IH]; [destruct Hi|]. destruct Hi as [<-|Hi]; [exact H|apply IH, Hi]. }
  assert (HL : length datas = length sizes) by (clear -HF; induction HF; cbn; congruence).
  assert (Hloc : forall r d n, nth_error datas r = Some d -> nth_error sizes r = Some n -> array_local deq datas r = Ok n).
  { intros r d n Hr Hn. unfold array_local. cbv zeta.
    assert (Nd : nth r datas [] = d) by (apply nth_error_nth; exact Hr). unfold adata in *. rewrite Nd. clear Nd.
    assert (X0 : existsb (fun dt0 => negb (dtype_eqb deq (dtype_of dt0) (dtype_of d))) datas = false).
    { apply Bool.not_true_iff_false. intros X. apply existsb_exists in X. destruct X as (d' & Hi & Hx).
      rewrite (Hdt d' Hi), (Hdt d (nth_error_In _ _ Hr)), dtype_eqb_refl in Hx by exact Hd. discriminate. }
    unfold adata in X0. rewrite X0, andb_false_r.
    assert (Hp : map fst d = dt /\ forall c, In c d -> snd c = n).
    { clear -HF Hr Hn. revert r Hr Hn. induction HF as [|d' n' ds ns H HF IH]; intros r Hr Hn; [destruct r; discriminate|]. destruct r as [|r]; cbn in Hr, Hn; [injection Hr as <-; injection Hn as <-; exact H|apply (IH r Hr Hn)]. }
    destruct Hp as [Hp1 Hp2]. destruct d as [|[[s x] m] d]; [cbn in Hp1; congruence|]. assert (m = n) as -> by (apply (Hp2 (s, x, m)); left; reflexivity).
    assert (forallb (fun c : string * D * nat => Nat.eqb (snd c) n) ((s, x, n) :: d) = true) as ->; [|reflexivity].
    apply forallb_forall. intros c Hc. apply Nat.eqb_eq. apply Hp2, Hc. }
  assert (E : map (array_local deq datas) (seq 0 (length datas)) = map Ok sizes).
  { apply nth_ext'; [rewrite !map_length, seq_length; exact HL|]. intros r Hr. rewrite map_length in Hr.
    destruct (nth_error datas r) as [d|] eqn:E1; [|apply nth_error_None in E1; lia]. destruct (nth_error sizes r) as [n|] eqn:E2; [|apply nth_error_None in E2; lia].
    rewrite (map_nth_error _ r sizes E2). rewrite (map_nth_error (array_local deq datas) r (seq 0 (length datas)) (d := r)); [f_equal; apply (Hloc r d n E1 E2)|].
    rewrite nth_error_nth' with (d := 0) by (rewrite seq_length; lia). rewrite seq_nth by lia. reflexivity. }
  rewrite E. assert (forallb is_ok (map Ok sizes) = true) as ->; [|reflexivity]. apply forallb_forall. intros x Hx. apply in_map_iff in Hx. destruct Hx as (n & <- & _). reflexivity.
Qed.

(* ---- subvolumes ---- *)
Lemma partition_perm {A} (f : A -> nat) n l : Permutation (flat_map (fun r => filter (fun x => Nat.eqb (f x) r) l) (seq 0 n)) (filter (fun x => f x <? n) l).
Proof.
  induction n as [|n IH]; [cbn; assert (filter (fun _ : A => false) l = []) as E by (induction l; [reflexivity|exact IHl]); unfold Nat.ltb; cbn; rewrite E; apply Permutation_refl|].
  rewrite seq_S, flat_map_app. cbn [flat_map Nat.add]. rewrite app_nil_r. rewrite IH. clear IH.
  induction l as [|x l IH]; [apply Permutation_refl|]. cbn [filter]. destruct (Nat.ltb_spec (f x) n), (Nat.ltb_spec (f x) (S n)), (Nat.eqb_spec (f x) n); try lia.
  - cbn [app]. apply perm_skip, IH.
  - rewrite <- Permutation_middle. apply perm_skip, IH.
  - exact IH.
Qed.
Definition places_from (k : nat) (sizes : list nat) : list (nat * nat) := flat_map (fun rn => map (pair (fst rn)) (seq 0 (snd rn))) (combine (seq k (length sizes)) sizes).
Lemma rank_exchange {V} (ts : list nat) (ds : list V) r : length ts = length ds -> forall k,
  map Some (flat_map (fun td => if Nat.eqb (fst td) r then [snd td] else []) (combine ts ds)) =
  map (fun i => nth_error ds (i - k)) (filter (fun i => match nth_error ts (i - k) with Some t => Nat.eqb t r | None => false end) (seq k (length ts))).
Proof.
  revert ds. induction ts as [|t ts IH]; intros [|d ds] L k; try discriminate; [reflexivity|]. cbn [combine flat_map fst snd length seq filter].
  rewrite Nat.sub_diag. cbn [nth_error]. injection L as L. specialize (IH ds L (S k)).
  assert (E : forall i, In i (seq (S k) (length ts)) -> nth_error (t :: ts) (i - k) = nth_error ts (i - S k) /\ nth_error (d :: ds) (i - k) = nth_error ds (i - S k)).
  { intros i Hi. apply in_seq in Hi. replace (i - k) with (S (i - S k)) by lia. split; reflexivity. }
  rewrite map_app, IH.
  assert (F : filter (fun i => match nth_error (t :: ts) (i - k) with Some t => Nat.eqb t r | None => false end) (seq (S k) (length ts)) =
              filter (fun i => match nth_error ts (i - S k) with Some t => Nat.eqb t r | None => false end) (seq (S k) (length ts))).
  { apply filter_ext_in. intros i Hi. rewrite (proj1 (E i Hi)). reflexivity. }
  rewrite F. set (q := filter _ _).
  assert (G : map (fun i => nth_error ds (i - S k)) q = map (fun i => nth_error (d :: ds) (i - k)) q).
  { apply map_ext_in. intros i Hi. apply filter_In in Hi. rewrite (proj2 (E i (proj1 Hi))). reflexivity. }
  rewrite G. destruct (Nat.eqb t r); [|reflexivity]. cbn [map app]. rewrite Nat.sub_diag. reflexivity.
Qed.
Lemma filter_flat_map {A B} (f : B -> bool) (g : A -> list B) l : filter f (flat_map g l) = flat_map (fun a => filter f (g a)) l.
Proof. induction l as [|a l IH]; [reflexivity|]. cbn. rewrite filter_app, IH. reflexivity. Qed.
Lemma map_flat_map {A B C} (f : B -> C) (g : A -> list B) l : map f (flat_map g l) = flat_map (fun a => map f (g a)) l.
Proof. induction l as [|a l IH]; [reflexivity|]. cbn. rewrite map_app, IH. reflexivity. Qed.
Lemma filter_map' {A B} (f : A -> B) (g : B -> bool) l : filter g (map f l) = map f (filter (fun x => g (f x)) l).
Proof. induction l as [|a l IH]; [reflexivity|]. cbn. rewrite IH. destruct (g (f a)); reflexivity. Qed.
Definition goes_to (layout : list (list nat)) (k : nat) (r : nat) (p : nat * nat) : bool :=
  match nth_error layout (fst p - k) with Some ts => match nth_error ts (snd p) with Some t => Nat.eqb t r | None => false end | None => false end.
Lemma exchange_from {V} (layout : list (list nat)) (data : list (list V)) r : map (@length nat) layout = map (@length V) data -> forall k,
  map Some (exchange layout data r) =
  map (fun p => match nth_error data (fst p - k) with Some l => nth_error l (snd p) | None => None end) (filter (goes_to layout k r) (places_from k (map (@length nat) layout))).
Proof.
  revert data. induction layout as [|ts layout IH]; intros [|ds data] L k; try discriminate; [reflexivity|]. cbn [map] in L. injection L as L1 L.
  unfold exchange, places_from in *. cbn [combine flat_map map length seq fst snd]. rewrite filter_app, !map_app. f_equal.
  - rewrite (rank_exchange ts ds r L1 0). rewrite filter_map', map_map. cbn [fst snd].
    assert (F : filter (fun i => goes_to (ts :: layout) k r (k, i)) (seq 0 (length ts)) = filter (fun i => match nth_error ts (i - 0) with Some t => Nat.eqb t r | None => false end) (seq 0 (length ts))).
    { apply filter_ext. intros i. unfold goes_to. cbn [fst snd]. rewrite Nat.sub_diag, Nat.sub_0_r. reflexivity. }
    rewrite F. apply map_ext. intros i. rewrite Nat.sub_diag, Nat.sub_0_r. reflexivity.
  - rewrite (IH data L (S k)). rewrite map_length.
    assert (E : forall p, In p (flat_map (fun rn => map (pair (fst rn)) (seq 0 (snd rn))) (combine (seq (S k) (length layout)) (map (@length nat) layout))) -> S k <= fst p).
    { intros p Hp. apply in_flat_map in Hp. destruct Hp as ([a b] & Hab & Hp). apply in_map_iff in Hp. destruct Hp as (i & <- & _). cbn [fst].
      apply in_combine_l in Hab. apply in_seq in Hab. cbn [fst]. lia. }
    rewrite (filter_ext_in (goes_to (ts :: layout) k r) (goes_to layout (S k) r)).
    2:{ intros p Hp. specialize (E p Hp). unfold goes_to. replace (fst p - k) with (S (fst p - S k)) by lia. reflexivity. }
    apply map_ext_in. intros p Hp. apply filter_In in Hp. specialize (E p (proj1 Hp)). replace (fst p - k) with (S (fst p - S k)) by lia. reflexivity.
Qed.
Lemma value_at_place {V} (data : list (list V)) p : In p (places (map (@length V) data)) <-> value_at data p <> None.
Proof.
  unfold places, value_at. rewrite map_length. rewrite in_flat_map. destruct p as [a i]. cbn [fst snd]. split.
  - intros ([r n] & H & Hp). apply in_map_iff in Hp. destruct Hp as (j & E & Hj). cbn [fst snd] in *. injection E as <- <-. apply in_seq in Hj.
    apply In_nth_error in H. destruct H as (q & H). destruct (nth_error data q) as [l|] eqn:Eq.
    + assert (Hq : q < length data) by (apply nth_error_Some; congruence).
      assert (nth_error (combine (seq 0 (length data)) (map (@length V) data)) q = Some (q, length l)).
      { clear H. assert (G : forall k, nth_error (combine (seq k (length data)) (map (@length V) data)) q = Some (k + q, length l)).
        { clear Hq Hj. revert q Eq. induction data as [|d data IH]; intros q Eq k; [destruct q; discriminate|]. destruct q as [|q]; cbn in Eq |- *; [injection Eq as ->; f_equal; f_equal; lia|].
          rewrite (IH q Eq (S k)). f_equal. f_equal. lia. }
        apply (G 0). }
      rewrite H in H0. injection H0 as -> ->. rewrite Eq. apply nth_error_Some. lia.
    + exfalso. apply nth_error_None in Eq. assert (q < length (combine (seq 0 (length data)) (map (@length V) data))) by (apply nth_error_Some; congruence). rewrite combine_length, seq_length in H0. lia.
  - intros H. destruct (nth_error data a) as [l|] eqn:E; [|congruence]. apply nth_error_Some in H. exists (a, length l). cbn [fst snd]. split; [|apply in_map, in_seq; lia].
    assert (G : forall k, In (k + a, length l) (combine (seq k (length data)) (map (@length V) data))).
    { clear H. revert a E. induction data as [|d data IH]; intros a E k; [destruct a; discriminate|]. destruct a as [|a]; cbn in E |- *.
      - injection E as ->. left. f_equal. lia.
      - right. replace (k + S a) with (S k + a) by lia. apply IH. exact E. }
    apply (G 0).
Qed.
Lemma lookup_in {V} (cols : list (string * list (list V))) name data : lookup cols name = Ok data -> In (name, data) cols.
Proof.
  unfold lookup. destruct (find _ cols) as [[s d]|] eqn:F; [|discriminate]. intros H. injection H as <-. apply find_some in F. destruct F as [F E]. cbn [fst] in E. apply String.eqb_eq in E. subst. exact F.
Qed.
Lemma rall_map_ok' {A B} (f : A -> res B) l r : rall (map f l) = Ok r -> Forall2 (fun a b => f a = Ok b) l r.
Proof.
  revert r. induction l as [|a l IH]; intros r H; cbn [map rall] in H; [injection H as <-; constructor|].
  destruct (f a) as [b|] eqn:E; [|discriminate]. cbn [rbind] in H. destruct (rall (map f l)) as [r'|] eqn:E2; [|discriminate]. cbn [rbind] in H. injection H as <-.
  constructor; [exact E|apply IH; reflexivity].
Qed.
Lemma subvolumes_ok {V} (decompose : V -> nat) position (cols : list (string * list (list V))) columns positions sv :
  lookup cols position = Ok positions ->
  (forall name data, In (name, data) cols -> map (@length V) data = map (@length V) positions) ->
  (forall l v, In l positions -> In v l -> decompose v < length positions) ->
  SubVolumes decompose position cols columns = Ok sv ->
  exists origin, length origin = length positions /\ Permutation (List.concat origin) (places (map (@length V) positions)) /\
    (forall name new, In (name, new) (sv_cols sv) -> exists data, lookup cols name = Ok data /\ comes_from data new origin) /\
    (forall r o p v, nth_error origin r = Some o -> In p o -> value_at positions p = Some v -> decompose v = r) /\
    sv_size sv = map (@length _) origin.
Proof.
  intros Hp Hlen Hd H. unfold SubVolumes in H. rewrite Hp in H. cbn [rbind] in H.
  set (layout := map (map decompose) positions) in *. set (names := match columns with None => map fst cols | Some l => l end) in *.
  destruct (rall _) as [frozen|] eqn:E in H; [|discriminate]. cbn [rbind] in H. injection H as <-. cbn [sv_cols sv_size].
  assert (Ll : map (@length nat) layout = map (@length V) positions).
  { unfold layout. rewrite map_map. apply map_ext. intros l. apply map_length. }
  assert (Lv : forall p, value_at layout p = option_map decompose (value_at positions p)).
  { intros p. unfold value_at, layout. destruct (nth_error positions (fst p)) as [l|] eqn:N.
    - rewrite (map_nth_error _ _ _ N). destruct (nth_error l (snd p)) as [v|] eqn:M; [rewrite (map_nth_error _ _ _ M); reflexivity|].
      apply nth_error_None in M. cbn [option_map]. apply nth_error_None. rewrite map_length. exact M.
    - apply nth_error_None in N. assert (nth_error (map (map decompose) positions) (fst p) = None) as -> by (apply nth_error_None; rewrite map_length; exact N). reflexivity. }
  set (tgt := fun p => match value_at layout p with Some t => t | None => 0 end).
  set (P := places (map (@length V) positions)).
  assert (Hgoes : forall r p, In p P -> goes_to layout 0 r p = Nat.eqb (tgt p) r).
  { intros r p Hi. unfold goes_to, tgt. rewrite Nat.sub_0_r. apply value_at_place in Hi. unfold value_at at 1.
    destruct (value_at layout p) as [t|] eqn:T.
    - unfold value_at in T. destruct (nth_error layout (fst p)); [|discriminate]. rewrite T. reflexivity.
    - exfalso. rewrite Lv in T. destruct (value_at positions p); [discriminate|congruence]. }
  set (origin := map (fun r => filter (fun p => Nat.eqb (tgt p) r) P) (seq 0 (length positions))).
  assert (Htgt : forall p, In p P -> tgt p < length positions /\ exists v, value_at positions p = Some v /\ decompose v = tgt p).
  { intros p Hi. apply value_at_place in Hi. unfold tgt. rewrite Lv. destruct (value_at positions p) as [v|] eqn:T; [|congruence]. cbn [option_map]. split; [|exists v; split; reflexivity].
    unfold value_at in T. destruct (nth_error positions (fst p)) as [l|] eqn:N; [|discriminate]. apply (Hd l v); [apply (nth_error_In _ _ N)|apply (nth_error_In _ _ T)]. }
  assert (Hx : forall data r, map (@length V) data = map (@length V) positions -> map Some (exchange layout data r) = map (value_at data) (filter (fun p => Nat.eqb (tgt p) r) P)).
  { intros data r L. rewrite (exchange_from layout data r) with (k := 0) by (rewrite Ll, L; reflexivity).
    change (places_from 0 (map (@length nat) layout)) with (places (map (@length nat) layout)). rewrite Ll. fold P.
    rewrite (filter_ext_in (goes_to layout 0 r) (fun p => Nat.eqb (tgt p) r)) by (intros p Hi; apply Hgoes; exact Hi).
    apply map_ext. intros p. unfold value_at. rewrite Nat.sub_0_r. reflexivity. }
  exists origin. split; [unfold origin; rewrite map_length, seq_length; reflexivity|]. split; [|split; [|split]].
  - unfold origin. rewrite <- flat_map_concat_map. rewrite (partition_perm tgt (length positions) P).
    assert (filter (fun p => tgt p <? length positions) P = P) as ->; [|apply Permutation_refl].
    clear -Htgt. induction P as [|p P IH]; [reflexivity|]. cbn [filter]. rewrite (proj2 (Nat.ltb_lt _ _) (proj1 (Htgt p (or_introl eq_refl)))). f_equal. apply IH. intros q Hq. apply Htgt. right. exact Hq.
  - intros name new Hi. apply rall_map_ok' in E. clear -E Hi Hx Hlen. induction E as [|nm b names frozen Hb E IH]; [destruct Hi|]. destruct Hi as [->|Hi]; [|apply IH; exact Hi].
    destruct (lookup cols nm) as [data|] eqn:Lk; [|discriminate]. cbn [rbind] in Hb. injection Hb as <- <-. exists data. split; [exact Lk|].
    pose proof (Hlen nm data (lookup_in _ _ _ Lk)) as L. unfold comes_from, origin. generalize (seq 0 (length positions)). intros rs.
    induction rs as [|r rs IHr]; [constructor|]. cbn [map]. constructor; [apply Hx; exact L|exact IHr].
  - intros r o p v Hn Hi Hv. unfold origin in Hn. destruct (nth_error (seq 0 (length positions)) r) as [r'|] eqn:Nr.
    + rewrite (map_nth_error _ _ _ Nr) in Hn. injection Hn as <-. apply filter_In in Hi. destruct Hi as [Hi Ht]. apply Nat.eqb_eq in Ht. destruct (Htgt p Hi) as (_ & v' & Hv' & Hd').
      assert (r < length positions) by (rewrite <- (seq_length (length positions) 0); apply nth_error_Some; congruence).
      rewrite (nth_error_nth' _ 0) in Nr by (rewrite seq_length; lia). rewrite seq_nth in Nr by lia. injection Nr as <-. cbn [Nat.add] in Ht. rewrite Hv in Hv'. injection Hv' as <-. congruence.
    + exfalso. apply nth_error_None in Nr. rewrite seq_length in Nr. assert (r < length (map (fun r => filter (fun p => Nat.eqb (tgt p) r) P) (seq 0 (length positions)))) by (apply nth_error_Some; congruence). rewrite map_length, seq_length in H. lia.
  - unfold origin. rewrite map_map. apply map_ext. intros r.
    assert (G : length (filter (Nat.eqb r) (List.concat layout)) = length (exchange layout positions r)).
    { unfold exchange. clear -Ll. unfold layout. induction positions as [|l positions IH]; [reflexivity|]. cbn [map List.concat combine flat_map fst snd]. rewrite filter_app, !app_length. f_equal.
      - clear. induction l as [|v l IH]; [reflexivity|]. cbn [map combine flat_map fst snd filter]. rewrite (Nat.eqb_sym (decompose v) r). destruct (Nat.eqb r (decompose v)); cbn [app length]; congruence.
      - apply IH. cbn in Ll. injection Ll as _ Ll. exact Ll. }
    rewrite G. rewrite <- (map_length Some (exchange layout positions r)), (Hx positions r eq_refl), map_length. reflexivity.
Qed.
Lemma lookup_total {V} (cols : list (string * list (list V))) name : In name (map fst cols) -> exists data, lookup cols name = Ok data.
Proof.
  intros H. unfold lookup. destruct (find (fun c => String.eqb (fst c) name) cols) as [c|] eqn:F; [exists (snd c); reflexivity|]. exfalso.
  apply in_map_iff in H. destruct H as (c & E & Hc). apply (find_none _ _ F) in Hc. rewrite E, String.eqb_refl in Hc. discriminate.
Qed.
Lemma subvolumes_total {V} (decompose : V -> nat) position (cols : list (string * list (list V))) columns :
  (forall name, In name (position :: columns) -> In name (map fst cols)) ->
  exists sv, SubVolumes decompose position cols (Some columns) = Ok sv /\ map fst (sv_cols sv) = columns.
Proof.
  intros H. unfold SubVolumes. destruct (lookup_total cols position (H _ (or_introl eq_refl))) as (positions & ->). cbn [rbind].
  assert (G : forall f : list (list V) -> list (list V), exists fr, rall (map (fun name => let! data := lookup cols name in Ok (name, f data)) columns) = Ok fr /\ map fst fr = columns).
  { intros f. assert (H' : forall name, In name columns -> In name (map fst cols)) by (intros name Hn; apply H; right; exact Hn). clear H.
    induction columns as [|c columns IH]; [exists []; split; reflexivity|]. cbn [map rall]. destruct (lookup_total cols c (H' _ (or_introl eq_refl))) as (data & ->). cbn [rbind].
    destruct (IH (fun n Hn => H' n (or_intror Hn))) as (fr & E & M). exists ((c, f data) :: fr). rewrite E. split; [reflexivity|]. cbn. rewrite M. reflexivity. }
  destruct (G (fun data => map (exchange (map (map decompose) positions) data) (seq 0 (length positions)))) as (fr & E & M). rewrite E. cbn [rbind]. eexists. split; [reflexivity|]. exact M.
Qed.
