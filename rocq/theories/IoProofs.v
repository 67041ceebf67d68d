From Verif Require Import Base BaseProofs IoModel IoSpec.

Lemma rows_at_select {A} (rows : list A) idx :
  Forall (in_range rows) idx -> rows_at rows idx (select rows idx).
Proof.
  unfold rows_at. intros H. induction H as [|i idx Hi _ IH]; [constructor|].
  cbn [select flat_map]. destruct (znth_some rows i Hi) as [x Hx]. rewrite Hx.
  constructor; [|exact IH]. unfold znth in Hx. destruct (Z.ltb_spec i 0); [discriminate|].
  split; [lia|exact Hx].
Qed.

Lemma rows_at_in_range {A} (rows : list A) idx out :
  rows_at rows idx out -> Forall (in_range rows) idx.
Proof.
  intros H. induction H as [|i x idx out [Hi Hx] _ IH]; constructor; [|exact IH].
  unfold in_range, zlen. split; [exact Hi|].
  assert (nth_error rows (Z.to_nat i) <> None) as Hn by congruence.
  apply nth_error_Some in Hn. lia.
Qed.

Lemma rows_at_unique {A} (rows : list A) idx out out' :
  rows_at rows idx out -> rows_at rows idx out' -> out = out'.
Proof.
  intros H. revert out'. induction H as [|i x idx out [Hi Hx] _ IH]; intros out' H'; inversion H'; subst; [reflexivity|].
  f_equal; [|apply IH; assumption].
  match goal with H : _ /\ _ |- _ => destruct H as [_ H] end. congruence.
Qed.

Lemma rows_at_eq_select {A} (rows : list A) idx out :
  rows_at rows idx out -> out = select rows idx.
Proof.
  intros H. eapply rows_at_unique; [exact H|]. apply rows_at_select.
  eapply rows_at_in_range; exact H.
Qed.

Lemma rows_at_app {A} (rows : list A) i1 o1 i2 o2 :
  rows_at rows i1 o1 -> rows_at rows i2 o2 -> rows_at rows (i1 ++ i2) (o1 ++ o2).
Proof. intros H1 H2. apply Forall2_app; assumption. Qed.

(* ---------- py_slice of everything with a positive step ---------- *)
Lemma py_slice_step {A} (l : list A) s :
  0 < s -> py_slice l None None (Some s) = Ok (every (Z.to_nat s) l).
Proof.
  intros Hs. unfold py_slice, slice_indices. simpl clip_start.
  destruct (Z.eqb_spec s 0); [lia|]. destruct (Z.ltb_spec 0 s); [|lia].
  cbn [rbind]. f_equal. rewrite <- every_sub_select.
  - rewrite sub_full. reflexivity.
  - pose proof (zlen_nonneg l); lia.
  - lia.
  - lia.
Qed.

(* ---------- FileStack ---------- *)

Definition read_one {A} (a : Z) (files : list (list A)) (start stop : Z) (fnum : nat)
  : res (list A) :=
  match nth_error (a :: cumsum_from a (map zlen files)) fnum, nth_error files fnum with
  | Some o, Some f => file_read f (Z.max (start - o) 0) (Z.min (stop - o) (zlen f))
  | _, _ => Err IndexError
  end.

Lemma searchsorted_cumsum a n l x :
  searchsorted (cumsum_from a (n :: l)) x =
  if a + n <? x then S (searchsorted (cumsum_from (a + n) l) x) else 0%nat.
Proof. reflexivity. Qed.

Definition parts_of {A} (a : Z) (files : list (list A)) (start stop : Z) : res (list (list A)) :=
  let c := cumsum_from a (map zlen files) in
  let lo := searchsorted c start in
  let hi := searchsorted c stop in
  rall (map (read_one a files start stop) (seq lo (hi + 1 - lo))).

Lemma read_one_shift {A} a f (files : list (list A)) start stop k :
  read_one a (f :: files) start stop (S k) = read_one (a + zlen f) files start stop k.
Proof.
  unfold read_one. cbn [map cumsum_from nth_error].
  reflexivity.
Qed.

Lemma parts_of_correct {A} (files : list (list A)) : forall a start stop,
  files <> [] -> start <= stop -> a <= stop -> stop <= a + zlen (concat files) ->
  exists parts, parts_of a files start stop = Ok parts /\
    concat parts = sub (concat files) (Z.max (start - a) 0) (stop - a).
Proof.
  induction files as [|f fs IH]; intros a start stop Hne Hss Hge Hle; [congruence|].
  unfold parts_of. cbn [map]. rewrite !searchsorted_cumsum.
  cbn [concat] in *. rewrite zlen_app in Hle.
  assert (Hf := zlen_nonneg f). assert (Hfs := zlen_nonneg (concat fs)).
  destruct (Z.ltb_spec (a + zlen f) start) as [H1|H1];
  destruct (Z.ltb_spec (a + zlen f) stop) as [H2|H2]; try lia.
  - (* both in the tail *)
    destruct (IH (a + zlen f) start stop) as (parts & HP & HC); try lia.
    { intros ->. simpl in *. unfold zlen in *; simpl in *; lia. }
    exists parts. split.
    + unfold parts_of in HP. rewrite <- HP.
      set (lo := searchsorted _ start). set (hi := searchsorted _ stop).
      change (S hi + 1 - S lo)%nat with (hi + 1 - lo)%nat.
      f_equal. rewrite <- seq_shift, map_map. apply map_ext. intros k. apply read_one_shift.
    + rewrite HC.
      replace (Z.max (start - a) 0) with (zlen f + (start - (a + zlen f))) by lia.
      replace (stop - a) with (zlen f + (stop - (a + zlen f))) by lia.
      rewrite sub_app_r by lia. f_equal; lia.
  - (* starts here, ends later *)
    destruct (IH (a + zlen f) start stop) as (parts & HP & HC); try lia.
    { intros ->. simpl in *. unfold zlen in *; simpl in *; lia. }
    exists (sub f (Z.max (start - a) 0) (zlen f) :: parts). split.
    + unfold parts_of in HP.
      assert (searchsorted (cumsum_from (a + zlen f) (map zlen fs)) start = 0%nat) as E.
      { destruct fs as [|g gs]; [reflexivity|]. cbn [map]. rewrite searchsorted_cumsum.
        destruct (Z.ltb_spec (a + zlen f + zlen g) start); [|reflexivity].
        pose proof (zlen_nonneg g); lia. }
      rewrite E in HP. rewrite Nat.sub_0_r in HP |- *.
      set (hi := searchsorted _ stop) in *.
      replace (S hi + 1)%nat with (S (S hi)) by lia.
      replace (hi + 1)%nat with (S hi) in HP by lia.
      change (seq 0 (S (S hi))) with (0%nat :: seq 1 (S hi)). rewrite map_cons.
      cbn [rall].
      assert (read_one a (f :: fs) start stop 0 =
              Ok (sub f (Z.max (start - a) 0) (zlen f))) as ->.
      { unfold read_one. cbn [nth_error]. unfold file_read.
        replace (Z.min (stop - a) (zlen f)) with (zlen f) by lia.
        destruct (0 <=? Z.max (start - a) 0) eqn:?; [|lia].
        destruct (Z.max (start - a) 0 <=? zlen f) eqn:?; [|lia].
        destruct (zlen f <=? zlen f) eqn:?; [reflexivity|lia]. }
      cbn [rbind]. rewrite <- seq_shift, map_map.
      rewrite (map_ext _ (read_one (a + zlen f) fs start stop)) by (intros k; apply read_one_shift).
      rewrite HP. reflexivity.
    + cbn [concat]. rewrite HC.
      replace (Z.max (start - (a + zlen f)) 0) with 0 by lia.
      rewrite <- (sub_app_split (f ++ concat fs) (Z.max (start - a) 0) (zlen f) (stop - a)) by lia.
      f_equal; [symmetry; apply sub_app_l; lia|].
      replace (sub (f ++ concat fs) (zlen f) (stop - a))
        with (sub (f ++ concat fs) (zlen f + 0) (zlen f + (stop - (a + zlen f)))) by (f_equal; lia).
      rewrite sub_app_r by lia. reflexivity.
  - (* starts and ends here *)
    exists [sub f (Z.max (start - a) 0) (stop - a)]. split.
    + cbn [seq map Nat.add Nat.sub rall]. unfold read_one. cbn [nth_error]. unfold file_read.
      replace (Z.min (stop - a) (zlen f)) with (stop - a) by lia.
      destruct (0 <=? Z.max (start - a) 0) eqn:?; [|lia].
      destruct (Z.max (start - a) 0 <=? stop - a) eqn:?; [|lia].
      destruct (stop - a <=? zlen f) eqn:?; [reflexivity|lia].
    + cbn [concat]. rewrite app_nil_r. symmetry. apply sub_app_l; lia.
Qed.

Lemma stack_parts {A} (files : list (list A)) start stop :
  rall (map (fun fnum =>
      let! sl := global_to_local_slice (map zlen files) start stop fnum in
      match nth_error files fnum with
      | Some f => file_read f (fst sl) (snd sl)
      | None => Err IndexError
      end) (get_file_slice (map zlen files) start stop)) = parts_of 0 files start stop.
Proof.
  unfold parts_of, get_file_slice, cumsizes. cbn [tl]. f_equal. apply map_ext. intros k.
  unfold global_to_local_slice, read_one, cumsizes, cumsum. rewrite nth_error_map'.
  destruct (nth_error (0 :: cumsum_from 0 (map zlen files)) k); [|reflexivity].
  destruct (nth_error files k); reflexivity.
Qed.

Lemma get_file_slice_nonempty sizes start stop :
  start <= stop -> get_file_slice sizes start stop <> [].
Proof.
  intros H. unfold get_file_slice. generalize (tl (cumsizes sizes)); intros c.
  assert (searchsorted c start <= searchsorted c stop)%nat as Hm.
  { induction c as [|x c IH]; simpl; [lia|].
    destruct (Z.ltb_spec x start), (Z.ltb_spec x stop); lia. }
  replace (searchsorted c stop + 1 - searchsorted c start)%nat
    with (S (searchsorted c stop - searchsorted c start))%nat by lia.
  discriminate.
Qed.

Lemma stack_read_ok {A} (files : list (list A)) start stop step :
  files <> [] -> 0 <= start <= stop -> stop <= zlen (concat files) -> 1 <= step ->
  stack_read files start stop step = Ok (select (concat files) (py_range start stop step)).
Proof.
  intros Hne Hs Hle Hst. unfold stack_read. rewrite stack_parts.
  destruct (parts_of_correct files 0 start stop Hne) as (parts & -> & HC); try lia.
  cbn [rbind]. destruct (get_file_slice _ _ _) eqn:E.
  { exfalso. revert E. apply get_file_slice_nonempty. lia. }
  rewrite py_slice_step by lia. rewrite HC.
  replace (Z.max (start - 0) 0) with start by lia. rewrite Z.sub_0_r.
  rewrite every_sub_select by lia. reflexivity.
Qed.

Lemma stack_reads_slices {A} (files : list (list A)) :
  files <> [] -> reads_slices (concat files) (stack_read files).
Proof.
  intros Hne a b s Hab Hb Hs. eexists. split.
  - apply stack_read_ok; [exact Hne|exact Hab|exact Hb|exact Hs].
  - apply rows_at_select, range_in_range; lia.
Qed.

(* asking for rows past the end is refused *)
Lemma rall_err {A} (l : list (res A)) e :
  In (Err e) l -> exists e', rall l = Err e'.
Proof.
  induction l as [|x l IH]; simpl; [tauto|]. intros [->|H]; [eexists; reflexivity|].
  destruct x; simpl; [|eauto]. destruct (IH H) as [e' ->]. eexists; reflexivity.
Qed.

Lemma searchsorted_all c x :
  Forall (fun y => y < x) c -> searchsorted c x = length c.
Proof.
  intros H; induction H as [|y c Hy _ IH]; simpl; [reflexivity|].
  destruct (Z.ltb_spec y x); lia.
Qed.

Lemma cumsum_from_bound a l x :
  Forall (fun y => 0 <= y) l -> In x (cumsum_from a l) -> x <= a + zsum l.
Proof.
  intros H; revert a; induction H as [|y l Hy Hl IH]; simpl; intros a; [tauto|].
  pose proof (zsum_nonneg l Hl).
  intros [<-|Hx]; [lia|]. apply IH in Hx. lia.
Qed.

Lemma stack_read_past_end {A} (files : list (list A)) start stop step :
  start <= stop -> zlen (concat files) < stop ->
  exists e, stack_read files start stop step = Err e.
Proof.
  intros Hs Hlt. unfold stack_read. rewrite stack_parts.
  enough (exists e, parts_of 0 files start stop = Err e) as [e ->] by (eexists; reflexivity).
  unfold parts_of. set (c := cumsum_from 0 (map zlen files)).
  assert (searchsorted c stop = length files) as Hhi.
  { rewrite searchsorted_all; [unfold c; rewrite cumsum_from_length, map_length; reflexivity|].
    apply Forall_forall. intros x Hx. apply cumsum_from_bound in Hx.
    - rewrite zlen_concat in Hlt. lia.
    - apply Forall_forall. intros y Hy. apply in_map_iff in Hy. destruct Hy as (f & <- & _). apply zlen_nonneg. }
  assert (searchsorted c start <= length files)%nat as Hlo.
  { rewrite <- Hhi. clear Hhi Hlt. clearbody c. induction c as [|x c IH]; simpl; [lia|].
    destruct (Z.ltb_spec x start), (Z.ltb_spec x stop); lia. }
  rewrite Hhi. apply rall_err with IndexError.
  apply in_map_iff. exists (length files). split; [|apply in_seq; lia].
  unfold read_one. assert (nth_error files (length files) = None) as -> by (apply nth_error_None; lia).
  destruct (nth_error _ _); reflexivity.
Qed.

(* ---------- get_slice_size ---------- *)
Lemma get_slice_size_ok start stop step :
  start <= stop -> 1 <= step ->
  get_slice_size start stop step = Ok (range_len start stop step).
Proof.
  intros H1 H2. unfold get_slice_size. destruct (Z.eqb_spec step 0); [lia|].
  f_equal. unfold range_len. rewrite (proj2 (Z.ltb_lt 0 step)) by lia.
  destruct (Z.ltb_spec start stop) as [H|H].
  - set (d := stop - start). replace (d - 1) with (d + (-1)) by lia.
    destruct (Z.eqb_spec (d mod step) 0) as [E|E].
    + assert (d = step * (d / step)) as Hd by (pose proof (Z.div_mod d step); lia).
      enough ((d + -1) / step = d / step - 1) by lia.
      symmetry. apply Z.div_unique with (r := step - 1); [lia|]. lia.
    + enough ((d + -1) / step = d / step) by lia.
      symmetry. apply Z.div_unique with (r := d mod step - 1).
      * pose proof (Z.mod_pos_bound d step). lia.
      * pose proof (Z.div_mod d step). lia.
  - assert (stop - start = 0) as -> by lia. rewrite Z.div_0_l, Z.mod_0_l by lia. reflexivity.
Qed.

(* ---------- BinaryFile ---------- *)

Lemma wf_concat_len {B} size k (col : list (list B)) :
  zlen col = size -> Forall (fun row => zlen row = k) col -> zlen (concat col) = size * k.
Proof.
  intros <- H. induction H as [|r col Hr _ IH]; [reflexivity|].
  cbn [concat]. rewrite zlen_app, zlen_cons. lia.
Qed.

(* the model's running offset is the true start of the column *)
Lemma default_byte_offset_spec {B} size itemsizes (table : list (list (list B))) :
  well_formed size itemsizes table -> forall off c, (c < length table)%nat ->
  default_byte_offset size itemsizes off c = off + zlen (concat (map (@concat B) (firstn c table))).
Proof.
  intros H. induction H as [|k col ks cols (Hk & Hl & Hr) _ IH]; intros off c Hc; [simpl in Hc; lia|].
  destruct c as [|c]; cbn [default_byte_offset firstn map concat].
  - unfold zlen; simpl; lia.
  - rewrite IH by (simpl in Hc; lia). rewrite zlen_app.
    rewrite (wf_concat_len size k col) by assumption. lia.
Qed.

Lemma layout_split {B} (header : list B) table c col :
  nth_error table c = Some col ->
  exists post, layout header table =
    (header ++ concat (map (@concat B) (firstn c table))) ++ concat col ++ post.
Proof.
  intros H. unfold layout.
  assert (table = firstn c table ++ col :: skipn (S c) table) as Ht.
  { clear -H. revert table H; induction c as [|c IH]; intros [|x t] H; try discriminate; simpl in *.
    - congruence.
    - f_equal. apply IH. exact H. }
  exists (concat (map (@concat B) (skipn (S c) table))).
  rewrite Ht at 1. rewrite map_app, concat_app. cbn [map concat]. rewrite app_assoc. reflexivity.
Qed.

(* the i-th item of a column with fixed row length *)
Lemma concat_item {B} k (col : list (list B)) i :
  0 <= k -> Forall (fun row => zlen row = k) col -> 0 <= i < zlen col ->
  exists row, nth_error col (Z.to_nat i) = Some row /\
              sub (concat col) (i * k) ((i + 1) * k) = row.
Proof.
  intros Hk H. revert i. induction H as [|r col Hr _ IH]; intros i Hi.
  - unfold zlen in Hi; simpl in Hi; lia.
  - rewrite zlen_cons in Hi. destruct (Z.eq_dec i 0) as [->|Hn].
    + exists r. split; [reflexivity|]. cbn [concat].
      replace (0 * k) with 0 by lia. replace ((0 + 1) * k) with (zlen r) by lia.
      rewrite sub_app_l by (pose proof (zlen_nonneg r); lia). apply sub_full.
    + destruct (IH (i - 1)) as (row & H1 & H2); [lia|]. exists row. split.
      * replace (Z.to_nat i) with (S (Z.to_nat (i - 1))) by lia. exact H1.
      * cbn [concat].
        replace (i * k) with (zlen r + (i - 1) * k) by lia.
        replace ((i + 1) * k) with (zlen r + (i - 1 + 1) * k) by lia.
        rewrite sub_app_r by nia. exact H2.
Qed.

Lemma fromfile_ok {B} (pre : list B) k (col : list (list B)) post start n :
  1 <= k -> Forall (fun row => zlen row = k) col ->
  0 <= start -> 0 <= n -> start + n <= zlen col ->
  fromfile (pre ++ concat col ++ post) (zlen pre + start * k) k n = sub col start (start + n).
Proof.
  intros Hk Hr Hs Hn Hle. unfold fromfile.
  assert (Hlen : zlen (concat col) = zlen col * k) by (apply wf_concat_len; auto).
  rewrite !zlen_app.
  set (avail := Z.max 0 ((zlen pre + (zlen (concat col) + zlen post) - (zlen pre + start * k)) / k)).
  assert (n <= avail) as Hav.
  { unfold avail. apply Z.le_trans with (2 := Z.le_max_r _ _).
    apply Z.div_le_lower_bound; [lia|]. pose proof (zlen_nonneg post). nia. }
  destruct (Z.ltb_spec n 0); [lia|]. rewrite Z.min_l by lia.
  apply nth_error_ext; intros i. rewrite nth_error_map', py_range_nth, sub_nth by lia.
  assert (range_len 0 n 1 = n) as ->.
  { unfold range_len. simpl. destruct (Z.ltb_spec 0 n); [|lia]. rewrite Z.div_1_r. lia. }
  destruct (Z.ltb_spec (Z.of_nat i) n); destruct (Z.ltb_spec (start + Z.of_nat i) (start + n));
    try lia; [|reflexivity].
  cbn [option_map].
  destruct (concat_item k col (start + Z.of_nat i)) as (row & G1 & G2); [lia|exact Hr|lia|].
  replace (Z.to_nat start + i)%nat with (Z.to_nat (start + Z.of_nat i)) by lia. rewrite G1.
  f_equal. rewrite <- G2.
  replace (zlen pre + start * k + (0 + Z.of_nat i * 1) * k)
    with (zlen pre + (start + Z.of_nat i) * k) by lia.
  replace (zlen pre + start * k + (0 + Z.of_nat i * 1 + 1) * k)
    with (zlen pre + (start + Z.of_nat i + 1) * k) by lia.
  rewrite sub_app_r by nia. rewrite sub_app_l; [reflexivity|nia|nia].
Qed.

Lemma wf_nth {B} size itemsizes (table : list (list (list B))) c col :
  well_formed size itemsizes table -> nth_error table c = Some col ->
  exists k, nth_error itemsizes c = Some k /\ 1 <= k /\ zlen col = size /\
            Forall (fun row => zlen row = k) col.
Proof.
  intros H. revert c. induction H as [|k col' ks cols Hc _ IH]; intros [|c] Hn; try discriminate.
  - injection Hn as ->. exists k. tauto.
  - apply IH. exact Hn.
Qed.

Lemma binary_read_col_ok {B} (header : list B) size itemsizes table c col k start stop step :
  well_formed size itemsizes table -> nth_error table c = Some col ->
  nth_error itemsizes c = Some k ->
  0 <= start <= stop -> stop <= size -> 1 <= step ->
  binary_read_col (layout header table) (default_byte_offset size itemsizes (zlen header) c)
                  k start stop step (range_len start stop step)
  = Ok (select col (py_range start stop step)).
Proof.
  intros Hwf Hc Hkk Hs Hle Hst.
  destruct (wf_nth _ _ _ _ _ Hwf Hc) as (k' & Hk' & Hk1 & Hlen & Hrows).
  assert (k' = k) as -> by congruence.
  rewrite (default_byte_offset_spec size itemsizes table Hwf) by (apply nth_error_Some; congruence).
  destruct (layout_split header table c col Hc) as [post ->].
  set (pre := header ++ concat (map (@concat B) (firstn c table))).
  replace (zlen header + zlen (concat (map (@concat B) (firstn c table)))) with (zlen pre)
    by (unfold pre; rewrite zlen_app; reflexivity).
  unfold binary_read_col. pose proof (zlen_nonneg pre).
  destruct (Z.ltb_spec (zlen pre) 0); [lia|].
  destruct (Z.ltb_spec (zlen pre + start * k) 0); [nia|].
  rewrite fromfile_ok; try lia; [|exact Hrows].
  replace (start + (stop - start)) with stop by lia.
  rewrite py_slice_step by lia. cbn [rbind].
  rewrite every_sub_select by lia.
  unfold assign_all, zlen at 1. rewrite select_length by (apply range_in_range; lia).
  replace (Z.of_nat (length (py_range start stop step))) with (zlen (py_range start stop step)) by reflexivity.
  rewrite py_range_length, Z.eqb_refl. reflexivity.
Qed.

Lemma binary_read_ok {B} (header : list B) size itemsizes table columns start stop step :
  well_formed size itemsizes table -> Forall (fun c => (c < length table)%nat) columns ->
  0 <= start <= stop -> stop <= size -> 1 <= step ->
  binary_read (layout header table) (zlen header) size itemsizes columns start stop step
  = Ok (map (fun c => select (nth c table []) (py_range start stop step)) columns).
Proof.
  intros Hwf Hcols Hs Hle Hst. unfold binary_read.
  rewrite get_slice_size_ok by lia. cbn [rbind].
  pose proof (range_len_nonneg start stop step).
  destruct (Z.ltb_spec (range_len start stop step) 0); [lia|].
  rewrite <- rall_ok. f_equal. rewrite map_map. apply map_ext_in. intros c Hin.
  rewrite Forall_forall in Hcols. specialize (Hcols c Hin).
  destruct (nth_error table c) as [col|] eqn:Ec; [|apply nth_error_None in Ec; lia].
  destruct (wf_nth _ _ _ _ _ Hwf Ec) as (k & Hk & Hk1 & Hlen & Hrows). rewrite Hk.
  rewrite (nth_error_nth table c [] Ec).
  apply binary_read_col_ok; auto.
Qed.

Lemma layout_length {B} (header : list B) size itemsizes table :
  well_formed size itemsizes table ->
  zlen (layout header table) = zlen header + size * zsum itemsizes.
Proof.
  intros H. unfold layout. rewrite zlen_app. f_equal.
  induction H as [|k col ks cols (Hk & Hl & Hr) _ IH]; [simpl; unfold zlen; simpl; lia|].
  cbn [map concat zsum fold_right]. rewrite zlen_app, IH, (wf_concat_len size k col) by assumption.
  fold (zsum ks). lia.
Qed.

Lemma wf_itemsizes_pos {B} size itemsizes (table : list (list (list B))) :
  well_formed size itemsizes table -> table <> [] -> 1 <= zsum itemsizes.
Proof.
  intros H Hne. destruct H as [|k col ks cols (Hk & _) Hrest]; [congruence|].
  simpl. assert (0 <= zsum ks); [|unfold zsum in *; lia].
  clear -Hrest. induction Hrest as [|k' c' ks' cs' (Hk' & _) _ IH]; simpl; lia.
Qed.

Lemma getsize_layout {B} (header : list B) size itemsizes table :
  well_formed size itemsizes table -> table <> [] ->
  getsize (zlen (layout header table)) (zlen header) (zsum itemsizes) = Ok size.
Proof.
  intros H Hne. pose proof (wf_itemsizes_pos _ _ _ H Hne).
  unfold getsize. rewrite (layout_length header size itemsizes table H).
  destruct (Z.eqb_spec (zsum itemsizes) 0); [lia|].
  replace (zlen header + size * zsum itemsizes - zlen header) with (size * zsum itemsizes) by lia.
  rewrite Z.mod_mul, Z.div_mul by lia. reflexivity.
Qed.

Lemma getsize_exact bytesize header_size rowsize n :
  getsize bytesize header_size rowsize = Ok n -> bytesize = header_size + n * rowsize.
Proof.
  unfold getsize. destruct (Z.eqb_spec rowsize 0); [discriminate|].
  destruct (Z.eqb_spec ((bytesize - header_size) mod rowsize) 0); [|discriminate].
  intros H; injection H as <-. pose proof (Z.div_mod (bytesize - header_size) rowsize). lia.
Qed.

Lemma default_offset_step size itemsizes : forall off c k,
  nth_error itemsizes c = Some k ->
  default_byte_offset size itemsizes off (S c) = default_byte_offset size itemsizes off c + size * k.
Proof.
  induction itemsizes as [|k' ks IH]; intros off c k H; [destruct c; discriminate|].
  destruct c as [|c].
  - simpl in H. injection H as ->. simpl. destruct ks; reflexivity.
  - cbn [nth_error] in H. cbn [default_byte_offset]. rewrite <- (IH (off + size * k') c k H). reflexivity.
Qed.

Lemma default_offset_mono size itemsizes off c1 c2 k :
  0 <= size -> Forall (fun k => 0 <= k) itemsizes ->
  (c1 < c2)%nat -> nth_error itemsizes c1 = Some k -> (c2 <= length itemsizes)%nat ->
  default_byte_offset size itemsizes off c1 + size * k <= default_byte_offset size itemsizes off c2.
Proof.
  intros Hs Hpos Hlt Hk. rewrite <- (default_offset_step size itemsizes off c1 k Hk).
  induction c2 as [|c2 IH]; [lia|]. intros Hc2.
  destruct (Nat.eq_dec c1 c2) as [->|Hn]; [lia|].
  destruct (nth_error itemsizes c2) as [k2|] eqn:E; [|apply nth_error_None in E; lia].
  rewrite (default_offset_step size itemsizes off c2 k2 E).
  assert (0 <= k2). { rewrite Forall_forall in Hpos. apply Hpos. eapply nth_error_In; eauto. }
  assert (c1 < c2)%nat as H' by lia. specialize (IH H' ltac:(lia)). nia.
Qed.

(* ---------- array-like indexing ---------- *)

Lemma groupby_concat {A} (key : A -> Z) l : concat (map snd (groupby key l)) = l.
Proof.
  induction l as [|x l IH]; [reflexivity|]. cbn [groupby].
  destruct (groupby key l) as [|[k g] r]; simpl in *.
  - subst l. reflexivity.
  - destruct (key x =? k); simpl; rewrite IH; reflexivity.
Qed.

Lemma groupby_groups {A} (key : A -> Z) l :
  Forall (fun kg => snd kg <> [] /\ Forall (fun x => key x = fst kg) (snd kg)) (groupby key l).
Proof.
  induction l as [|x l IH]; [constructor|]. cbn [groupby].
  destruct (groupby key l) as [|[k g] r].
  - constructor; [|constructor]. simpl. split; [discriminate|]. constructor; auto.
  - inversion IH as [|? ? [Hne Hg] Hr]; subst; simpl in *.
    destruct (Z.eqb_spec (key x) k) as [E|E].
    + constructor; [|exact Hr]. simpl. split; [discriminate|]. constructor; auto.
    + constructor; [simpl; split; [discriminate|constructor; auto]|].
      constructor; [simpl; auto|exact Hr].
Qed.

Lemma masked_app {A} (r1 r2 : list A) m1 m2 :
  length r1 = length m1 -> masked (r1 ++ r2) (m1 ++ m2) = masked r1 m1 ++ masked r2 m2.
Proof.
  intros H. unfold masked. revert m1 H; induction r1 as [|x r1 IH]; intros [|b m1] H; try discriminate; [reflexivity|].
  simpl. destruct b; simpl; rewrite IH by (simpl in H; lia); reflexivity.
Qed.

Lemma masked_true {A} (r : list A) m :
  length r = length m -> Forall (fun b => b = true) m -> masked r m = r.
Proof.
  intros Hl H. unfold masked. revert r Hl; induction H as [|b m -> _ IH]; intros [|x r] Hl; try discriminate; [reflexivity|].
  simpl. f_equal. apply IH. simpl in Hl; lia.
Qed.

Lemma masked_false {A} (r : list A) m :
  Forall (fun b => b = false) m -> masked r m = [].
Proof.
  intros H. unfold masked. revert r; induction H as [|b m -> _ IH]; intros [|x r]; try reflexivity.
  simpl. apply IH.
Qed.

Lemma mask_chunks_ok {A} (rows : list A) (read : Z -> Z -> Z -> res (list A)) :
  reads_slices rows read ->
  forall runs low,
  Forall (fun kg => snd kg <> [] /\ Forall (fun x => zbool x = fst kg) (snd kg)) runs ->
  0 <= low -> low + zlen (concat (map snd runs)) <= zlen rows ->
  exists parts,
    rall (map (fun c => read (fst c) (snd c) 1) (mask_chunks low runs)) = Ok parts /\
    concat parts = masked (sub rows low (low + zlen (concat (map snd runs)))) (concat (map snd runs)).
Proof.
  intros Hread runs. induction runs as [|[v g] r IH]; intros low Hg Hlow Hle.
  - exists []. split; [reflexivity|]. simpl. unfold zlen; simpl. rewrite Z.add_0_r, sub_empty. reflexivity.
  - inversion Hg as [|? ? [Hne Hv] Hr]; subst; simpl in Hne, Hv.
    cbn [map concat snd] in *. rewrite zlen_app in *.
    pose proof (zlen_nonneg g) as Hg0. pose proof (zlen_nonneg (concat (map snd r))) as Hr0.
    destruct (IH (low + zlen g) Hr) as (parts & HP & HC); [lia|lia|].
    assert (Hsplit : sub rows low (low + (zlen g + zlen (concat (map snd r)))) =
            sub rows low (low + zlen g) ++
            sub rows (low + zlen g) (low + zlen g + zlen (concat (map snd r)))).
    { rewrite sub_app_split by lia. f_equal; lia. }
    rewrite Hsplit.
    assert (Hlg : length (sub rows low (low + zlen g)) = length g).
    { assert (zlen (sub rows low (low + zlen g)) = zlen g) as E by (rewrite sub_length by lia; lia).
      apply Nat2Z.inj. exact E. }
    rewrite masked_app by exact Hlg.
    cbn [mask_chunks]. destruct (Z.eqb_spec v 1) as [->|Hv1].
    + cbn [map rall fst snd].
      destruct (Hread low (low + zlen g) 1) as (out & Hout & Hrows); try lia.
      rewrite Hout. cbn [rbind]. rewrite HP. cbn [rbind].
      exists (out :: parts). split; [reflexivity|]. cbn [concat]. rewrite HC. f_equal.
      rewrite masked_true; [|exact Hlg|].
      * apply rows_at_eq_select in Hrows. rewrite Hrows. symmetry. apply sub_select; lia.
      * eapply Forall_impl; [|exact Hv]. intros b; destruct b; simpl; [auto|discriminate].
    + exists parts. split; [exact HP|]. rewrite HC.
      rewrite (masked_false (sub rows low (low + zlen g)) g); [reflexivity|].
      eapply Forall_impl; [|exact Hv]. intros b; destruct b; simpl; [congruence|auto].
Qed.

Lemma mask_chunks_nonempty runs : forall low,
  Exists (fun kg => fst kg = 1) runs -> mask_chunks low runs <> [].
Proof.
  induction runs as [|[v g] r IH]; intros low H; inversion H as [? ? H'|? ? H']; subst; simpl in *.
  - subst v. discriminate.
  - destruct (v =? 1); [discriminate|]. apply IH. exact H'.
Qed.

Lemma mask_chunks_empty runs : forall low,
  Forall (fun kg => snd kg <> [] /\ Forall (fun x => zbool x = fst kg) (snd kg)) runs ->
  Forall (fun b => b = false) (concat (map snd runs)) -> mask_chunks low runs = [].
Proof.
  induction runs as [|[v g] r IH]; intros low Hg Hf; [reflexivity|].
  inversion Hg as [|? ? [Hne Hv] Hr]; subst; simpl in *.
  apply Forall_app in Hf. destruct Hf as [Hf1 Hf2].
  destruct g as [|b g]; [congruence|]. inversion Hv; subst. inversion Hf1; subst. simpl.
  apply IH; auto.
Qed.

Lemma mask_runs_true m : In true m ->
  Exists (fun kg : Z * list bool => fst kg = 1) (groupby zbool m).
Proof.
  intros H. rewrite <- (groupby_concat zbool m) in H. apply in_concat in H.
  destruct H as (g & Hg & Ht). apply in_map_iff in Hg. destruct Hg as ([k g'] & <- & Hin).
  apply Exists_exists. exists (k, g'). split; [exact Hin|]. simpl in *.
  pose proof (groupby_groups zbool m) as G. rewrite Forall_forall in G.
  destruct (G _ Hin) as [_ Hk]. simpl in Hk. rewrite Forall_forall in Hk. symmetry. exact (Hk true Ht).
Qed.

Lemma getitem_mask_ok {A} (rows : list A) read m :
  reads_slices rows read -> zlen m = zlen rows -> In true m ->
  getitem_rows read (zlen rows) (RMask m) = Ok (masked rows m).
Proof.
  intros Hread Hlen Hin. unfold getitem_rows, find_slice_chunks_bool.
  pose proof (groupby_concat zbool m) as Hc. pose proof (groupby_groups zbool m) as Hg.
  pose proof (mask_runs_true m Hin) as Hex.
  destruct (groupby zbool m) as [|kg runs] eqn:E; [inversion Hex|]. rewrite <- E in *. clear E kg runs.
  cbn [rbind].
  destruct (mask_chunks_ok rows read Hread (groupby zbool m) 0 Hg) as (parts & HP & HC); [lia|rewrite Hc; lia|].
  rewrite Hc in HC. rewrite Z.add_0_l, Hlen, sub_full in HC.
  destruct (mask_chunks 0 (groupby zbool m)) eqn:E2; [exfalso; exact (mask_chunks_nonempty _ 0 Hex E2)|].
  rewrite HP. cbn [rbind]. rewrite HC. reflexivity.
Qed.

Lemma getitem_mask_none {A} (rows : list A) (read : Z -> Z -> Z -> res (list A)) m :
  ~ In true m -> getitem_rows read (zlen rows) (RMask m) = Err ValueError.
Proof.
  intros Hin. unfold getitem_rows, find_slice_chunks_bool.
  pose proof (groupby_concat zbool m) as Hc. pose proof (groupby_groups zbool m) as Hg.
  destruct (groupby zbool m) as [|kg runs] eqn:E; [reflexivity|].
  cbn [rbind]. rewrite mask_chunks_empty; [reflexivity|exact Hg|].
  rewrite Hc. apply Forall_forall. intros b Hb. destruct b; [tauto|reflexivity].
Qed.

(* consecutive groups of the integer index *)
Lemma enumerate_fst {A} (l : list A) : map fst (enumerate l) = map Z.of_nat (seq 0 (length l)).
Proof.
  unfold enumerate. generalize 0%nat as k. induction l as [|x l IH]; intros k; [reflexivity|].
  simpl. f_equal. apply IH.
Qed.
Lemma enumerate_snd {A} (l : list A) : map snd (enumerate l) = l.
Proof.
  unfold enumerate. generalize 0%nat as k. induction l as [|x l IH]; intros k; [reflexivity|].
  simpl. f_equal. apply IH.
Qed.

(* a list whose first components count up *)
Fixpoint counts_from (i : Z) (l : list (Z * Z)) : Prop :=
  match l with [] => True | (j, _) :: l => j = i /\ counts_from (i + 1) l end.

Lemma counts_from_app i l l' :
  counts_from i (l ++ l') <-> counts_from i l /\ counts_from (i + zlen l) l'.
Proof.
  revert i; induction l as [|[j x] l IH]; intros i; simpl.
  - replace (i + zlen (@nil (Z*Z))) with i by (unfold zlen; simpl; lia). tauto.
  - rewrite IH, zlen_cons. replace (i + 1 + zlen l) with (i + (1 + zlen l)) by lia. tauto.
Qed.

Lemma enumerate_counts (l : list Z) : counts_from 0 (enumerate l).
Proof.
  unfold enumerate.
  enough (forall k : nat, counts_from (Z.of_nat k) (combine (map Z.of_nat (seq k (length l))) l)) as H by exact (H 0%nat).
  induction l as [|x l IH]; intros k; simpl; [exact I|]. split; [reflexivity|].
  replace (Z.of_nat k + 1) with (Z.of_nat (S k)) by lia. apply IH.
Qed.

Lemma group_run g : forall i k,
  counts_from i g -> Forall (fun x : Z * Z => fst x - snd x = k) g ->
  map snd g = py_range (i - k) (i - k + zlen g) 1.
Proof.
  intros i k Hc Hk. apply nth_error_ext. intros n. rewrite nth_error_map', py_range_nth.
  assert (range_len (i - k) (i - k + zlen g) 1 = zlen g) as ->.
  { unfold range_len. simpl. pose proof (zlen_nonneg g).
    destruct (Z.ltb_spec (i - k) (i - k + zlen g)); rewrite ?Z.div_1_r; lia. }
  revert i n Hc. induction Hk as [|[j x] g Hx _ IH]; intros i n Hc.
  - unfold zlen; simpl. destruct n; simpl; destruct (Z.ltb_spec (Z.of_nat 0) 0); try reflexivity; try lia.
  - simpl in Hc, Hx. destruct Hc as [-> Hc]. rewrite zlen_cons. destruct n as [|n]; cbn [nth_error option_map snd].
    + pose proof (zlen_nonneg g). destruct (Z.ltb_spec (Z.of_nat 0) (1 + zlen g)); [f_equal; lia|lia].
    + rewrite (IH (i + 1) n Hc).
      destruct (Z.ltb_spec (Z.of_nat n) (zlen g)), (Z.ltb_spec (Z.of_nat (S n)) (1 + zlen g)); try lia; [f_equal; lia|reflexivity].
Qed.

Lemma last_range a b : a < b -> last (py_range a b 1) 0 = b - 1 /\ hd 0 (py_range a b 1) = a.
Proof.
  intros H. assert (py_range a b 1 = map (fun i => a + Z.of_nat i * 1) (seq 0 (Z.to_nat (b - a)))) as ->.
  { unfold py_range. do 3 f_equal. unfold range_len. simpl. destruct (Z.ltb_spec a b); [|lia]. rewrite Z.div_1_r. lia. }
  remember (Z.to_nat (b - a)) as n eqn:En. destruct n as [|n]; [lia|]. split.
  - rewrite seq_S, map_app. cbn [map]. rewrite last_last. lia.
  - simpl. lia.
Qed.

Lemma int_chunks_ok {A} (rows : list A) (read : Z -> Z -> Z -> res (list A)) :
  reads_slices rows read ->
  forall groups i,
  Forall (fun kg : Z * list (Z * Z) => snd kg <> [] /\ Forall (fun x => fst x - snd x = fst kg) (snd kg)) groups ->
  counts_from i (concat (map snd groups)) ->
  Forall (in_range rows) (map snd (concat (map snd groups))) ->
  exists parts,
   rall (map (fun c => read (fst c) (snd c) 1)
     (map (fun kg => let xx := map snd (snd kg) in (hd 0 xx, last xx 0 + 1)) groups)) = Ok parts /\
   rows_at rows (map snd (concat (map snd groups))) (concat parts).
Proof.
  intros Hread groups. induction groups as [|[k g] r IH]; intros i Hg Hc Hin.
  - exists []. split; [reflexivity|constructor].
  - inversion Hg as [|? ? [Hne Hk] Hr]; subst; simpl in Hne, Hk.
    cbn [map concat snd fst] in *. apply counts_from_app in Hc. destruct Hc as [Hc1 Hc2].
    rewrite map_app in *. apply Forall_app in Hin. destruct Hin as [Hin1 Hin2].
    destruct (IH _ Hr Hc2 Hin2) as (parts & HP & HC).
    pose proof (group_run g i k Hc1 Hk) as Hrun.
    assert (0 < zlen g) as Hlen. { destruct g; [congruence|]. rewrite zlen_cons. pose proof (zlen_nonneg g). lia. }
    destruct (last_range (i - k) (i - k + zlen g)) as [Hla Hhd]; [lia|].
    cbn [rall]. rewrite Hrun, Hla, Hhd. rewrite Hrun in Hin1.
    assert (in_range rows (i - k)) as Hlo.
    { rewrite Forall_forall in Hin1. apply Hin1. apply in_py_range. exists 0. split; [|lia].
      unfold range_len. simpl. destruct (Z.ltb_spec (i - k) (i - k + zlen g)); rewrite ?Z.div_1_r; lia. }
    assert (in_range rows (i - k + zlen g - 1)) as Hhi.
    { rewrite Forall_forall in Hin1. apply Hin1. apply in_py_range. exists (zlen g - 1). split; [|lia].
      unfold range_len. simpl. destruct (Z.ltb_spec (i - k) (i - k + zlen g)); rewrite ?Z.div_1_r; lia. }
    unfold in_range in Hlo, Hhi. cbn [fst snd].
    replace (i - k + zlen g - 1 + 1) with (i - k + zlen g) by lia.
    destruct (Hread (i - k) (i - k + zlen g) 1) as (out & Hout & Hrows); try lia.
    rewrite Hout. cbn [rbind]. rewrite HP. cbn [rbind].
    exists (out :: parts). split; [reflexivity|]. cbn [concat].
    apply rows_at_app; assumption.
Qed.

Lemma from_end_eq n i : (if i <? 0 then i + n else i) = from_end n i.
Proof. reflexivity. Qed.

Lemma getitem_ints_ok {A} (rows : list A) read l :
  reads_slices rows read -> l <> [] ->
  Forall (fun i => - zlen rows <= i < zlen rows) l ->
  exists out, getitem_rows read (zlen rows) (RInts l) = Ok out /\
              rows_at rows (map (from_end (zlen rows)) l) out.
Proof.
  intros Hread Hne Hin. unfold getitem_rows.
  set (l' := map (fun i => if i <? 0 then i + zlen rows else i) l).
  change (map (from_end (zlen rows)) l) with l'.
  pose proof (groupby_concat (fun x : Z * Z => fst x - snd x) (enumerate l')) as Hc.
  pose proof (groupby_groups (fun x : Z * Z => fst x - snd x) (enumerate l')) as Hg.
  assert (Hin' : Forall (in_range rows) l').
  { unfold l'. apply Forall_forall. intros x Hx. apply in_map_iff in Hx. destruct Hx as (i & <- & Hi).
    rewrite Forall_forall in Hin. specialize (Hin i Hi). unfold in_range. destruct (Z.ltb_spec i 0); lia. }
  destruct (int_chunks_ok rows read Hread _ 0 Hg) as (parts & HP & HR).
  - rewrite Hc. apply enumerate_counts.
  - rewrite Hc, enumerate_snd. exact Hin'.
  - rewrite Hc, enumerate_snd in HR. exists (concat parts). split; [|exact HR].
    unfold find_slice_chunks_int.
    destruct (groupby (fun x : Z * Z => fst x - snd x) (enumerate l')) as [|kg gs] eqn:E.
    + exfalso. simpl in Hc. assert (l' = []) as E2.
      { rewrite <- (enumerate_snd l'). rewrite <- Hc. reflexivity. }
      unfold l' in E2. apply map_eq_nil in E2. congruence.
    + cbn [map] in HP |- *. rewrite HP. reflexivity.
Qed.

Lemma getitem_int_ok {A} (rows : list A) read i :
  reads_slices rows read -> - zlen rows <= i < zlen rows ->
  exists x, getitem_rows read (zlen rows) (RInt i) = Ok [x] /\
            nth_error rows (Z.to_nat (from_end (zlen rows) i)) = Some x.
Proof.
  intros Hread Hi. unfold getitem_rows. rewrite from_end_eq.
  set (j := from_end (zlen rows) i).
  assert (0 <= j < zlen rows) as Hj. { unfold j, from_end. destruct (Z.ltb_spec i 0); lia. }
  destruct (Hread j (j + 1) 1) as (out & -> & HR); try lia.
  assert (py_range j (j + 1) 1 = [j]) as E.
  { unfold py_range, range_len. simpl. destruct (Z.ltb_spec j (j + 1)); [|lia].
    replace ((j + 1 - j - 1) / 1 + 1) with 1 by (rewrite Z.div_1_r; lia). simpl. f_equal. lia. }
  rewrite E in HR. inversion HR as [|? x ? out' [_ Hx] Hrest]; subst. inversion Hrest; subst.
  exists x. split; [reflexivity|exact Hx].
Qed.

Lemma getitem_slice_ok {A} (rows : list A) read start stop step a b s :
  reads_slices rows read ->
  slice_indices start stop step (zlen rows) = Ok (a, b, s) -> 0 < s -> a <= b ->
  exists out, getitem_rows read (zlen rows) (RSlice start stop step) = Ok out /\
              py_slice rows start stop step = Ok out.
Proof.
  intros Hread Hs Hpos Hab. unfold getitem_rows, py_slice. rewrite Hs. cbn [rbind].
  pose proof (slice_indices_spec _ _ _ _ _ _ _ (zlen_nonneg rows) Hs) as (_ & Hp & _).
  specialize (Hp Hpos).
  destruct (Hread a b s) as (out & -> & HR); try lia.
  exists out. split; [reflexivity|]. apply rows_at_eq_select in HR. congruence.
Qed.

Lemma binary_reads_slices {B} (header : list B) size itemsizes table c col :
  well_formed size itemsizes table -> nth_error table c = Some col ->
  reads_slices col (fun a b s =>
    match binary_read (layout header table) (zlen header) size itemsizes [c] a b s with
    | Ok [x] => Ok x | Ok _ => Err OutOfContract | Err e => Err e end).
Proof.
  intros Hwf Hc a b s Hab Hb Hs.
  destruct (wf_nth _ _ _ _ _ Hwf Hc) as (k & Hk & Hk1 & Hlen & Hrows).
  assert (c < length table)%nat as Hlt by (apply nth_error_Some; congruence).
  rewrite binary_read_ok; auto; try lia. cbn [map]. rewrite (nth_error_nth table c [] Hc).
  eexists. split; [reflexivity|]. apply rows_at_select, range_in_range; lia.
Qed.
