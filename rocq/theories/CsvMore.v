From Coq Require Import Ascii.
From Verif Require Import Base BaseProofs IoModel IoSpec IoProofs CsvModel CsvSpec CsvProofs.
Local Open Scope nat_scope.

(* ---- reading from partitions of known sizes ---- *)
Lemma rall_map_ok : forall (X Y : Type) (g h : X -> res Y) l ys, (forall x y, g x = Ok y -> h x = Ok y) ->
  rall (map g l) = Ok ys -> rall (map h l) = Ok ys.
Proof.
  intros X Y g h l ys H. revert ys. induction l as [|x l IH]; intros ys E; [exact E|]. cbn [map rall] in *.
  destruct (g x) as [y|] eqn:Eg; [|discriminate]. rewrite (H _ _ Eg). cbn [rbind] in *.
  destruct (rall (map g l)) as [zs|]; [|discriminate]. rewrite (IH zs eq_refl). exact E.
Qed.
Lemma file_read_slice : forall (X : Type) (l : list X) a b r, file_read l a b = Ok r -> py_slice l (Some a) (Some b) None = Ok r.
Proof.
  intros X l a b r H. unfold file_read in H. destruct ((0 <=? a)%Z && (a <=? b)%Z && (b <=? zlen l)%Z) eqn:E; [|discriminate].
  apply andb_true_iff in E. destruct E as [E E3]. apply andb_true_iff in E. destruct E as [E1 E2].
  apply Z.leb_le in E1, E2, E3. injection H as <-. unfold py_slice, slice_indices, clip_start. cbn [Z.eqb Z.ltb Z.compare rbind].
  destruct (Z.ltb_spec a 0); [lia|]. destruct (Z.ltb_spec b 0); [lia|]. rewrite sub_select by lia. repeat f_equal; lia.
Qed.
Lemma read_partitions : forall f bs sb skip nrows ps start stop step,
  make_partitions f bs sb skip nrows = Ok (ps, map zlen (map (part_value f bs sb) ps)) -> ps <> [] ->
  (0 <= start <= stop)%Z -> (stop <= zlen (concat (map (part_value f bs sb) ps)))%Z -> (1 <= step)%Z ->
  csv_read f bs sb skip nrows start stop step = stack_read (map (part_value f bs sb) ps) start stop step.
Proof.
  intros f bs sb skip nrows ps start stop step H Hne H1 H2 H3. unfold csv_read. rewrite H. cbn [rbind fst snd].
  set (files := map (part_value f bs sb) ps) in *.
  assert (Hf : files <> []) by (unfold files; destruct ps; [congruence|discriminate]).
  rewrite (stack_read_ok files) by assumption.
  destruct (parts_of_correct files 0 start stop Hf) as (parts & HP & HC); try lia.
  rewrite <- (stack_parts files start stop) in HP.
  erewrite (rall_map_ok _ _ _ _ _ parts); [| |exact HP].
  - cbn [rbind]. rewrite py_slice_step by lia. rewrite HC.
    replace (Z.max (start - 0) 0) with start by lia. rewrite Z.sub_0_r. rewrite every_sub_select by lia. reflexivity.
  - intros k y E. cbv beta in E. destruct (global_to_local_slice (map zlen files) start stop k) as [sl|]; cbn [rbind] in *; [|discriminate E].
    unfold files in E. rewrite nth_error_map' in E. destruct (nth_error ps k); cbn [option_map] in E; [|discriminate E]. apply file_read_slice. exact E.
Qed.

(* ... when the first size is negative *)
Lemma searchsorted_shift : forall c b x, searchsorted (map (fun y => (y - b)%Z) c) x = searchsorted c (x + b)%Z.
Proof.
  induction c as [|y c IH]; intros b x; [reflexivity|]. cbn [map searchsorted].
  rewrite IH. destruct (Z.ltb_spec (y - b) x); destruct (Z.ltb_spec y (x + b)); try reflexivity; lia.
Qed.
Lemma cumsum_shift : forall l a b, cumsum_from (a - b) l = map (fun y => (y - b)%Z) (cumsum_from a l).
Proof.
  induction l as [|n l IH]; intros a b; [reflexivity|]. cbn [cumsum_from map]. replace (a - b + n)%Z with (a + n - b)%Z by lia.
  rewrite IH. reflexivity.
Qed.
Lemma slice_shift : forall sizes d a b, (0 < d)%Z -> (0 <= a)%Z -> (a <= b)%Z ->
  get_file_slice (- d :: sizes)%Z a b = map Datatypes.S (get_file_slice sizes (a + d) (b + d)).
Proof.
  intros sizes d a b Hd Ha Hb. unfold get_file_slice, cumsizes, cumsum. cbn [tl cumsum_from searchsorted].
  assert (E : cumsum_from (0 + - d) sizes = map (fun y => (y - d)%Z) (cumsum_from 0 sizes)) by (rewrite <- cumsum_shift; f_equal; lia).
  rewrite E. rewrite !searchsorted_shift. destruct (Z.ltb_spec (0 + - d) a); [|lia]. destruct (Z.ltb_spec (0 + - d) b); [|lia].
  set (x := searchsorted _ _). set (y := searchsorted _ _). rewrite seq_shift. f_equal.
Qed.
Lemma local_shift : forall sizes d a b k,
  global_to_local_slice (- d :: sizes)%Z a b (Datatypes.S k) = global_to_local_slice sizes (a + d) (b + d) k.
Proof.
  intros sizes d a b k. unfold global_to_local_slice, cumsizes, cumsum. cbn [nth_error].
  assert (E : nth_error (cumsum_from 0 (- d :: sizes)%Z) k = option_map (fun y => (y - d)%Z) (nth_error (0 :: cumsum_from 0 sizes)%Z k)).
  { cbn [cumsum_from]. rewrite <- nth_error_map'. cbn [map]. rewrite <- cumsum_shift. reflexivity. }
  rewrite E. destruct (nth_error (0 :: cumsum_from 0 sizes)%Z k) as [c|]; cbn [option_map]; [|reflexivity].
  destruct (nth_error sizes k); [|reflexivity].
  replace (a - (c - d))%Z with (a + d - c)%Z by lia. replace (b - (c - d))%Z with (b + d - c)%Z by lia. reflexivity.
Qed.
Lemma read_partitions_over : forall f bs sb skip nrows p0 ps d start stop step,
  make_partitions f bs sb skip nrows = Ok (p0 :: ps, (- d)%Z :: map zlen (map (part_value f bs sb) ps)) -> ps <> [] -> (0 < d)%Z ->
  (0 <= start <= stop)%Z -> (stop + d <= zlen (concat (map (part_value f bs sb) ps)))%Z -> (1 <= step)%Z ->
  csv_read f bs sb skip nrows start stop step = stack_read (map (part_value f bs sb) ps) (start + d) (stop + d) step.
Proof.
  intros f bs sb skip nrows p0 ps d start stop step H Hne Hd H1 H2 H3. unfold csv_read. rewrite H. cbn [rbind fst snd].
  rewrite slice_shift, map_map by lia.
  set (files := map (part_value f bs sb) ps) in *.
  assert (Hf : files <> []) by (unfold files; destruct ps; [congruence|discriminate]).
  rewrite (stack_read_ok files) by (try assumption; lia).
  destruct (parts_of_correct files 0 (start + d) (stop + d) Hf) as (parts & HP & HC); try lia.
  rewrite <- (stack_parts files (start + d) (stop + d)) in HP.
  erewrite (rall_map_ok _ _ _ _ _ parts); [| |exact HP].
  - cbn [rbind]. rewrite py_slice_step by lia. rewrite HC.
    replace (Z.max (start + d - 0) 0) with (start + d)%Z by lia. rewrite Z.sub_0_r. rewrite every_sub_select by lia. reflexivity.
  - intros k y E. cbv beta in E |- *. rewrite local_shift. destruct (global_to_local_slice (map zlen files) (start + d) (stop + d) k) as [sl|]; cbn [rbind] in *; [|discriminate E].
    cbn [nth_error]. unfold files in E. rewrite nth_error_map' in E. destruct (nth_error ps k); cbn [option_map] in E; [|discriminate E]. apply file_read_slice. exact E.
Qed.

Lemma filter_all : forall (X : Type) (p : X -> bool) l, Forall (fun x => p x = true) l -> filter p l = l.
Proof. intros X p l H. induction H as [|x l H _ IH]; [reflexivity|]. cbn [filter]. rewrite H, IH. reflexivity. Qed.
Lemma filter_len : forall (X : Type) (p : X -> bool) l, length (filter p l) <= length l.
Proof. intros X p l. induction l as [|x l IH]; [apply le_n|]. cbn [filter length]. destruct (p x); cbn [length]; lia. Qed.
Lemma nth_fs : forall (X : Type) (l : list X) a n k p, nth_error (firstn n (skipn a l)) k = Some p -> nth_error l (a + k) = Some p /\ k < n.
Proof.
  intros X l a. revert l. induction a as [|a IH]; intros l n k p H.
  - cbn [skipn Nat.add] in *. revert n k H. induction l as [|x l IH]; intros [|n] [|k] H; try discriminate; cbn in *; [split; [exact H|lia]|].
    apply IH in H. destruct H. split; [assumption|lia].
  - destruct l as [|x l]; [cbn in H; rewrite firstn_nil in H; destruct k; discriminate|]. apply (IH l n k p H).
Qed.
(* ---- regular files ---- *)
Section Regular.
Variables (ls : list bytes) (tail : bytes) (bs : nat) (sb : bool) (skip : nat).
Hypothesis Hls : Forall no_newline ls.
Hypothesis Htail : no_newline tail.
Hypothesis Hbs : 1 <= bs.
Hypothesis Hne : all_lines ls tail <> [].
Hypothesis Hreg : regular ls tail bs sb skip.
Let w := pieces ls tail.
Let nb := (length (text ls tail) + bs - 1) / bs.
Let K (i : nat) : nat := before w (i * bs).

Lemma w_well : well w. Proof using All. apply pieces_well; assumption. Qed.
Lemma w_lines : map fst w = all_lines ls tail. Proof using All. apply pieces_lines. Qed.
Lemma w_length : length w = length (all_lines ls tail). Proof using All. rewrite <- w_lines, map_length. reflexivity. Qed.
Lemma w_whole : whole w = text ls tail. Proof using All. apply whole_pieces. Qed.
Lemma w_pos : 0 < length w. Proof using All. rewrite w_length. destruct (all_lines ls tail); [congruence|cbn; lia]. Qed.
Lemma w_off : forall k, k < length w -> off w k = start_of ls k.
Proof using All.
  intros k Hk. unfold off, start_of, w, pieces. rewrite w_length in Hk. unfold all_lines in Hk. rewrite app_length in Hk.
  assert (Hle : k <= length ls) by (destruct tail; cbn in Hk; lia).
  rewrite firstn_app. replace (k - length (map (fun l => (l, true)) ls)) with 0 by (rewrite map_length; lia). rewrite app_nil_r, firstn_map.
  f_equal. clear. induction (firstn k ls) as [|l m IH]; [reflexivity|]. cbn [map flat_map]. rewrite whole_cons, IH. reflexivity.
Qed.
Lemma size_pos : 0 < length (text ls tail).
Proof using All. rewrite <- w_whole. pose proof (off_strict w 0 w_well w_pos). lia. Qed.
Lemma nb_eq : nb = (length (text ls tail) - 1) / bs + 1.
Proof using All.
  unfold nb. pose proof size_pos. replace (length (text ls tail) + bs - 1) with (length (text ls tail) - 1 + 1 * bs) by lia. rewrite Nat.div_add by lia. reflexivity.
Qed.
Lemma nb_pos : 0 < nb. Proof using All. rewrite nb_eq, Nat.add_1_r. apply Nat.lt_0_succ. Qed.
Lemma off_lt : forall i, i < nb -> i * bs < length (text ls tail).
Proof using All.
  intros i Hi. rewrite nb_eq in Hi. pose proof size_pos. pose proof (Nat.mul_div_le (length (text ls tail) - 1) bs ltac:(lia)) as H1.
  assert (i * bs <= bs * ((length (text ls tail) - 1) / bs)) by (rewrite (Nat.mul_comm bs); apply Nat.mul_le_mono_r; lia). lia.
Qed.
Lemma nb_end : length (text ls tail) <= nb * bs.
Proof using All.
  rewrite nb_eq. pose proof size_pos. pose proof (Nat.div_mod (length (text ls tail) - 1) bs ltac:(lia)) as H1.
  pose proof (Nat.mod_upper_bound (length (text ls tail) - 1) bs ltac:(lia)). set (d := (length (text ls tail) - 1) / bs) in *. lia.
Qed.
Lemma K_0 : K 0 = 0. Proof using All. reflexivity. Qed.
Lemma K_mono : forall i j, i <= j -> K i <= K j.
Proof using All. intros i j H. unfold K. apply before_mono. apply Nat.mul_le_mono_r. exact H. Qed.
Lemma K_nb : K nb = length w.
Proof using All.
  unfold K, before. pose proof nb_end. pose proof size_pos. destruct (nb * bs) as [|n] eqn:E; [lia|]. apply upto_big; [apply w_well|]. rewrite w_whole. lia.
Qed.
Lemma K_le : forall i k, 0 < i -> k < K i -> off w k <= i * bs.
Proof using All.
  intros i k Hi Hk. unfold K, before in Hk. destruct (i * bs) as [|n] eqn:E; [lia|]. apply (upto_spec w (S n)). exact Hk.
Qed.
Lemma K_gt : forall i k, 0 < i -> K i <= k -> k < length w -> i * bs < off w k.
Proof using All.
  intros i k Hi Hk Hl. unfold K, before in Hk. destruct (i * bs) as [|n] eqn:E; [apply Nat.eq_mul_0 in E; lia|].
  destruct (upto_spec w (S n)) as [_ [H2 _]]. specialize (H2 ltac:(lia)). pose proof (off_mono w _ _ Hk). lia.
Qed.
Lemma K_lt_nb : K (nb - 1) < length w.
Proof using All.
  pose proof w_pos as Hw. destruct (Nat.eq_dec (nb - 1) 0) as [E|E]; [rewrite E, K_0; exact Hw|].
  destruct (le_lt_dec (length w) (K (nb - 1))) as [G|G]; [|exact G]. exfalso.
  assert (Hk : length w - 1 < K (nb - 1)) by lia. apply K_le in Hk; [|lia].
  rewrite w_off in Hk by lia. pose proof (reg_last _ _ _ _ _ Hreg) as Hlast. unfold block_of in Hlast. rewrite <- w_length in Hlast.
  rewrite nb_eq in E, Hk. replace ((length (text ls tail) - 1) / bs + 1 - 1) with ((length (text ls tail) - 1) / bs) in * by lia.
  rewrite <- Hlast in E, Hk. set (s := start_of ls (length w - 1)) in *.
  pose proof (Nat.mul_div_le (s - 1) bs ltac:(lia)). rewrite (Nat.mul_comm bs) in H.
  assert (s = 0) by lia. rewrite H0 in E. rewrite Nat.div_0_l in E by lia. lia.
Qed.
Lemma K_boundary : forall j, 0 < j -> j < nb -> boundary ls tail bs (K j).
Proof using All.
  intros j Hj Hn. pose proof K_lt_nb as H1. pose proof (K_mono j (nb - 1) ltac:(lia)) as H2.
  assert (H0 : 0 < K j). { unfold K, before. destruct (j * bs) eqn:E; [apply Nat.eq_mul_0 in E; lia|]. pose proof w_pos. destruct w; [cbn in *; lia|]. cbn [upto]. destruct (_ <? _); lia. }
  split; [exact H0|]. rewrite <- w_length. split; [lia|]. unfold block_of. rewrite <- !w_off by lia.
  pose proof (K_le j (K j - 1) Hj ltac:(lia)) as H3. pose proof (K_gt j (K j) Hj ltac:(lia) ltac:(lia)) as H4.
  assert (j <= (off w (K j) - 1) / bs) by (apply Nat.div_le_lower_bound; lia).
  assert ((off w (K j - 1) - 1) / bs < j) by (apply Nat.div_lt_upper_bound; [lia|]; rewrite Nat.mul_comm; assert (0 < j * bs) by (apply Nat.mul_pos_pos; lia); lia).
  lia.
Qed.

Definition seg (i : nat) : list piece := segment w (i * bs) bs.
Lemma seg_eq : forall i, seg i = firstn (K (S i) - K i) (skipn (K i) w).
Proof using All. intros i. unfold seg, segment, K. replace (i * bs + bs) with (S i * bs) by (cbn; lia). reflexivity. Qed.
Lemma seg_prefix : forall m, concat (map seg (seq 0 m)) = firstn (K m) w.
Proof using All.
  induction m as [|m IH]; [rewrite K_0; reflexivity|]. rewrite seq_S, map_app, concat_app, IH. cbn [map concat Nat.add]. rewrite app_nil_r, seg_eq.
  rewrite <- firstn_plus. f_equal. pose proof (K_mono m (S m) ltac:(lia)). lia.
Qed.
Lemma seg_nth : forall i k p, nth_error (seg i) k = Some p -> nth_error w (K i + k) = Some p /\ K i + k < K (S i).
Proof using All.
  intros i k p H. rewrite seg_eq in H. apply nth_fs in H. split; [apply H|lia].
Qed.
Lemma w_nth : forall k p, nth_error w k = Some p -> nth_error (all_lines ls tail) k = Some (fst p).
Proof using All. intros k p H. rewrite <- w_lines, nth_error_map', H. reflexivity. Qed.
Lemma spaced_nth : forall ps : list piece,
  (forall k p p', nth_error ps k = Some p -> nth_error ps (S k) = Some p' -> fst p = [] -> fst p' <> []) -> spaced ps.
Proof using All.
  clear. induction ps as [|p [|p' ps] IH]; intros H; [exact I|exact I|]. split; [apply (H 0); reflexivity|].
  apply IH. intros k q q' H1 H2. apply (H (S k)); assumption.
Qed.
Lemma tl_nth : forall (X : Type) (l : list X) k, nth_error (tl l) k = nth_error l (S k).
Proof using All. clear. intros X [|x l] k; [destruct k; reflexivity|reflexivity]. Qed.
Lemma seg_fits : forall i, i < nb -> (i = 0 -> skip <= K 1) -> fits sb (match i with O => true | _ => false end) (match i with O => skip | _ => 0 end) (seg i).
Proof using All.
  intros i Hi Hskip. split; [rewrite seg_eq; apply well_firstn, well_skipn, w_well|].
  pose proof (reg_skip _ _ _ _ _ Hreg) as Hs1.
  split.
  - destruct i as [|i]; [|lia]. rewrite seg_eq, K_0. cbn [skipn]. rewrite Nat.sub_0_r, firstn_length, w_length. specialize (Hskip eq_refl). lia.
  - intros Hsb. pose proof (reg_blank _ _ _ _ _ Hreg Hsb) as Hb. split; [|split; [|split]].
    + intros l Hl Hbl. apply in_map_iff in Hl. destruct Hl as [p [<- Hp]]. apply In_nth_error in Hp. destruct Hp as [k Hk].
      apply seg_nth in Hk. destruct Hk as [Hk _]. apply w_nth in Hk. exact (proj1 (Hb _ _ Hk Hbl)).
    + apply spaced_nth. intros k p p' H1 H2 E1 E2. rewrite tl_nth in H1, H2. apply seg_nth in H1, H2. destruct H1 as [H1 _]. destruct H2 as [H2 _].
      apply w_nth in H1, H2. destruct (Hb _ _ H2 ltac:(rewrite E2; reflexivity)) as [_ [_ [_ H3]]]. apply (H3 ltac:(lia)).
      replace (K i + S (S k) - 1) with (K i + S k) by lia. rewrite H1, E1. reflexivity.
    + intros Hf. destruct i as [|i]; [discriminate|]. destruct (seg (S i)) as [|p S0] eqn:E; [reflexivity|].
      assert (Hk : nth_error (seg (S i)) 0 = Some p) by (rewrite E; reflexivity). apply seg_nth in Hk. destruct Hk as [Hk _].
      pose proof w_well as Hw. assert (Hin : In p w) by (eapply nth_error_In; exact Hk). rewrite whole_cons.
      destruct p as [l t]. destruct l as [|c l].
      * exfalso. rewrite Nat.add_0_r in Hk. apply w_nth in Hk. destruct (Hb _ _ Hk eq_refl) as [_ [_ [H3 _]]]. apply H3. apply K_boundary; lia.
      * unfold render. cbn [fst snd app starts_nl].
        assert (Hnn : no_newline (c :: l)). { clear - Hw Hin. induction Hw as [|l0 H1 H2|l0 ps H1 H IH]; [destruct Hin|destruct Hin as [E|[]]; congruence|destruct Hin as [E|Hin]; [congruence|apply IH; exact Hin]]. }
        apply (not_nl _ _ Hnn).
    + intros l Hl. destruct i as [|i]; [|destruct Hl]. apply In_nth_error in Hl. destruct Hl as [k Hk].
      assert (Hlt : k < skip). { assert (k < length (firstn skip (map fst (seg 0)))) by (apply nth_error_Some; congruence). rewrite firstn_length in H. lia. }
      assert (Hk' : nth_error (map fst (seg 0)) k = Some l).
      { rewrite <- (firstn_skipn skip (map fst (seg 0))). rewrite nth_error_app1; [exact Hk|apply nth_error_Some; congruence]. }
      rewrite nth_error_map' in Hk'. destruct (nth_error (seg 0) k) as [p|] eqn:Ep; [|discriminate]. apply seg_nth in Ep. destruct Ep as [Ep _].
      apply w_nth in Ep. cbn [option_map] in Hk'. injection Hk' as <-. rewrite K_0 in Ep. cbn [Nat.add] in Ep.
      destruct (blank (fst p)) eqn:Ebl; [|reflexivity]. destruct (Hb _ _ Ep Ebl) as [_ [H _]]. lia.
Qed.
Lemma well_open : forall ps k p, well ps -> nth_error ps k = Some p -> snd p = false -> k = length ps - 1.
Proof using All.
  clear. intros ps k p H. revert k. induction H as [|l H1 H2|l ps H1 H IH]; intros k Hk Hp; [destruct k; discriminate| |].
  - destruct k as [|k]; [reflexivity|destruct k; discriminate].
  - destruct k as [|k]; [cbn in Hk; injection Hk as <-; discriminate|]. cbn [nth_error] in Hk. specialize (IH k Hk Hp).
    assert (k < length ps) by (apply nth_error_Some; congruence). cbn [length]. lia.
Qed.
Lemma seg_closed : forall i, i < nb - 1 -> open_end (seg i) = false.
Proof using All.
  intros i Hi. destruct (open_end (seg i)) eqn:E; [|reflexivity]. exfalso. unfold open_end in E. apply existsb_exists in E. destruct E as [p [Hp E]].
  apply In_nth_error in Hp. destruct Hp as [k Hk]. apply seg_nth in Hk. destruct Hk as [Hk Hlt]. apply negb_true_iff in E.
  pose proof (well_open w _ _ w_well Hk E) as H. pose proof K_lt_nb. pose proof (K_mono (S i) (nb - 1) ltac:(lia)). lia.
Qed.
Lemma open_tail : open_end w = true <-> tail <> [].
Proof using All.
  clear. unfold w, pieces, open_end. rewrite existsb_app.
  assert (E : existsb (fun p : piece => negb (snd p)) (map (fun l : bytes => (l, true)) ls) = false) by (induction ls; [reflexivity|]; cbn; assumption).
  rewrite E. destruct tail; cbn; split; congruence.
Qed.

Definition answer (nrows : option nat) : list bytes :=
  match nrows with None => wanted sb skip (all_lines ls tail) | Some n => firstn n (wanted sb skip (all_lines ls tail)) end.
Lemma partitions_ok : skip <= K 1 -> forall nrows, match nrows with None => True | Some n => clear_limit ls tail bs sb skip n end ->
  exists ps, make_partitions (text ls tail) bs sb skip (option_map Z.of_nat nrows) = Ok (ps, map zlen (map (part_value (text ls tail) bs sb) ps)) /\
    ps <> [] /\ concat (map (part_value (text ls tail) bs sb) ps) = answer nrows.
Proof using All.
  intros Hskip nrows Hlim. pose proof nb_pos as Hnb.
  pose proof (loop_ok (text ls tail) bs sb (offsets (length (text ls tail)) bs) (map seg (seq 0 nb)) true skip (option_map Z.of_nat nrows)) as L.
  assert (Hmake : make_partitions (text ls tail) bs sb skip (option_map Z.of_nat nrows) =
    Ok (part_loop (text ls tail) bs sb true skip (option_map Z.of_nat nrows) (offsets (length (text ls tail)) bs))).
  { unfold make_partitions. destruct bs; [lia|reflexivity]. }
  rewrite Hmake. destruct (part_loop _ _ _ _ _ _ _) as [ps ss].
  assert (Hall : concat (map seg (seq 0 nb)) = w) by (rewrite seg_prefix, K_nb; apply firstn_all).
  assert (L' : ss = map zlen (map (part_value (text ls tail) bs sb) ps) /\ ps <> [] /\
     concat (map (part_value (text ls tail) bs sb) ps) = limit (option_map Z.of_nat nrows) (rows_of sb skip w)).
  { rewrite <- Hall. apply L; clear L.
    - unfold offsets. fold nb. assert (Hi : forall i, In i (seq 0 nb) -> i < nb) by (intros i H; apply in_seq in H; lia).
      revert Hi. generalize (seq 0 nb). induction l as [|i l IH]; intros Hi; [constructor|]. cbn [map]. constructor.
      + rewrite <- w_whole. apply block_whole; [apply w_well|]. rewrite w_whole. apply off_lt. apply Hi. left. reflexivity.
      + apply IH. intros j Hj. apply Hi. right. exact Hj.
    - destruct nb as [|m] eqn:Em; [lia|]. cbn [seq map]. split; [apply (seg_fits 0); [lia|intros _; exact Hskip]|]. apply Forall_forall. intros S0 HS.
      apply in_map_iff in HS. destruct HS as [i [<- Hi]]. apply in_seq in Hi. destruct i as [|i]; [lia|]. apply (seg_fits (S i)); lia.
    - intros S0 HS. replace nb with (S (nb - 1)) in HS by lia. rewrite seq_S, map_app in HS. cbn [map] in HS. rewrite removelast_last in HS.
      apply in_map_iff in HS. destruct HS as [i [<- Hi]]. apply in_seq in Hi. apply seg_closed. lia.
    - replace nb with (S (nb - 1)) by lia. rewrite seq_S, map_app. cbn [map]. rewrite last_last. rewrite seg_eq. cbn [Nat.add].
      replace (S (nb - 1)) with nb by lia. rewrite K_nb. pose proof K_lt_nb. intros E. apply (f_equal (@length _)) in E. rewrite firstn_length, skipn_length in E. cbn [length] in E. lia.
    - destruct nrows as [n|]; [|exact I]. cbn [option_map]. destruct Hlim as [L1 [L2 L3]]. unfold fine_limit. rewrite map_length, seq_length. split; [lia|]. split.
      + intros j Hj. rewrite firstn_map. replace (firstn j (seq 0 nb)) with (seq 0 j) by (replace nb with (j + (nb - j)) by lia; rewrite seq_app, firstn_app, firstn_all2 by (rewrite seq_length; lia); rewrite seq_length, Nat.sub_diag, app_nil_r; reflexivity).
        rewrite seg_prefix. unfold rows_of. rewrite <- firstn_map, w_lines. specialize (L2 (K j) (K_boundary j ltac:(lia) ltac:(lia))). unfold zlen. lia.
      + rewrite Hall. intros Ho. apply open_tail in Ho. specialize (L3 Ho). unfold rows_of. rewrite w_lines. unfold zlen. lia. }
  destruct L' as [L1 [L2 L3]]. exists ps. rewrite <- L1. split; [reflexivity|]. split; [exact L2|]. rewrite L3. unfold rows_of. rewrite w_lines.
  destruct nrows as [n|]; [|reflexivity]. cbn [option_map limit answer]. rewrite Nat2Z.id. reflexivity.
Qed.
Lemma zsum_concat : forall (X : Type) (l : list (list X)), zsum (map zlen l) = zlen (concat l).
Proof using All. clear. intros X l. induction l as [|x l IH]; [reflexivity|]. cbn [map zsum fold_right concat]. fold (zsum (map zlen l)). rewrite IH. unfold zlen. rewrite app_length. lia. Qed.

(* more lines are skipped than the first block has *)
Lemma skipn_plus : forall (X : Type) a b (l : list X), skipn a (skipn b l) = skipn (b + a) l.
Proof using All. clear. intros X a b. induction b as [|b IH]; intros l; [reflexivity|]. destruct l as [|x l]; [rewrite !skipn_nil; reflexivity|]. apply IH. Qed.
Lemma kept_skipped : forall k l, nth_error (all_lines ls tail) k = Some l -> k < skip -> negb (sb && blank l) = true.
Proof using All.
  intros k l H Hk. destruct sb eqn:E; [|reflexivity]. destruct (blank l) eqn:Eb; [|reflexivity].
  destruct (reg_blank _ _ _ _ _ Hreg eq_refl k l H Eb) as [_ [G _]]. lia.
Qed.
Lemma split_skip : forall k, K 1 <= skip -> skip <= k -> k <= length (all_lines ls tail) ->
  let L := skipn (K 1) (firstn k (all_lines ls tail)) in
  wanted sb 0 L = firstn (skip - K 1) L ++ wanted sb skip (firstn k (all_lines ls tail)) /\ length (firstn (skip - K 1) L) = skip - K 1.
Proof using All.
  intros k H1 H2 H3. cbv zeta. set (L := skipn (K 1) _). assert (HL : length L = k - K 1) by (unfold L; rewrite skipn_length, firstn_length; lia).
  split; [|rewrite firstn_length; lia]. unfold wanted. cbn [skipn].
  replace (skipn skip (firstn k (all_lines ls tail))) with (skipn (skip - K 1) L) by (unfold L; rewrite skipn_plus; f_equal; lia).
  rewrite <- (firstn_skipn (skip - K 1) L) at 1. rewrite filter_app. f_equal. apply filter_all. apply Forall_forall. intros l Hl.
  apply In_nth_error in Hl. destruct Hl as [i Hi]. unfold L in Hi. apply nth_fs in Hi. destruct Hi as [Hi Hd].
  replace (firstn k (all_lines ls tail)) with (firstn k (skipn 0 (all_lines ls tail))) in Hi by reflexivity. apply nth_fs in Hi. destruct Hi as [Hi _].
  cbn [Nat.add] in Hi. apply (kept_skipped _ _ Hi). lia.
Qed.
Lemma first_size : K 1 < skip -> 1 < nb -> block_size sb true skip (whole (seg 0)) = (- Z.of_nat (skip - K 1))%Z.
Proof using All.
  intros Hs Hn. pose proof K_lt_nb as G. pose proof (K_mono 1 (nb - 1) ltac:(lia)) as G1.
  assert (Hseg : map fst (seg 0) = firstn (K 1) (all_lines ls tail)) by (rewrite seg_eq, K_0; cbn [skipn]; rewrite Nat.sub_0_r, <- firstn_map, w_lines; reflexivity).
  assert (Hin : forall l, In l (map fst (seg 0)) -> negb (sb && blank l) = true).
  { intros l Hl. rewrite Hseg in Hl. apply In_nth_error in Hl. destruct Hl as [i Hi]. change (firstn (K 1) (all_lines ls tail)) with (firstn (K 1) (skipn 0 (all_lines ls tail))) in Hi.
    apply nth_fs in Hi. destruct Hi as [Hi Hd]. apply (kept_skipped _ _ Hi). lia. }
  assert (Hwell : well (seg 0)) by (rewrite seg_eq; apply well_firstn, well_skipn, w_well).
  pose proof (block_size_ok (seg 0) sb true 0 Hwell ltac:(lia)) as HB. rewrite seg_closed in HB by lia.
  assert (E : block_size sb true skip (whole (seg 0)) = (block_size sb true 0 (whole (seg 0)) - Z.of_nat skip)%Z) by (unfold block_size; lia).
  rewrite E. clear E. rewrite Z.add_0_r in HB. rewrite HB; clear HB.
  - unfold wanted. cbn [skipn]. rewrite filter_all by (apply Forall_forall; exact Hin). unfold zlen. rewrite Hseg, firstn_length, <- w_length. lia.
  - intros Hsb. rewrite Hsb in Hin. cbn [andb] in Hin. split; [|split; [|split]].
    + intros l Hl Hb. specialize (Hin l Hl). rewrite Hb in Hin. discriminate.
    + apply spaced_nth. intros k p p' H1 H2 E1. rewrite tl_nth in H1. assert (Hf : In (fst p) (map fst (seg 0))) by (apply in_map; eapply nth_error_In; exact H1).
      specialize (Hin _ Hf). rewrite E1 in Hin. discriminate.
    + discriminate.
    + intros l [].
Qed.
Lemma rest_prefix : forall j, concat (map seg (seq 1 j)) = firstn (K (S j) - K 1) (skipn (K 1) w).
Proof using All.
  intros j. induction j as [|j IH]; [rewrite Nat.sub_diag; reflexivity|]. rewrite seq_S, map_app, concat_app, IH. cbn [map concat Nat.add]. rewrite app_nil_r, seg_eq.
  pose proof (K_mono 1 (S j) ltac:(lia)). pose proof (K_mono (S j) (S (S j)) ltac:(lia)).
  replace (skipn (K (S j)) w) with (skipn (K (S j) - K 1) (skipn (K 1) w)) by (rewrite skipn_plus; f_equal; lia).
  rewrite <- firstn_plus. f_equal. lia.
Qed.
Lemma partitions_over : K 1 < skip -> forall nrows, match nrows with None => True | Some n => clear_limit ls tail bs sb skip n end ->
  exists p0 ps, make_partitions (text ls tail) bs sb skip (option_map Z.of_nat nrows) =
      Ok (p0 :: ps, (- Z.of_nat (skip - K 1))%Z :: map zlen (map (part_value (text ls tail) bs sb) ps)) /\
    ps <> [] /\ skip - K 1 <= length (concat (map (part_value (text ls tail) bs sb) ps)) /\
    skipn (skip - K 1) (concat (map (part_value (text ls tail) bs sb) ps)) = answer nrows.
Proof using All.
  intros Hskip nrows Hlim. pose proof nb_pos as Hnb. pose proof (reg_skip _ _ _ _ _ Hreg) as Hs.
  assert (Hn1 : 1 < nb). { destruct (Nat.eq_dec nb 1) as [E|E]; [|lia]. exfalso. pose proof K_nb as G. rewrite E, w_length in G. lia. }
  set (d := skip - K 1). assert (Hd : 0 < d) by (unfold d; lia).
  pose (nrows' := option_map (fun n => (Z.of_nat n + Z.of_nat d)%Z) nrows).
  pose (rest := map (fun i => i * bs) (seq 1 (nb - 1))).
  assert (Hoff : offsets (length (text ls tail)) bs = 0 :: rest).
  { unfold offsets, rest. fold nb. replace nb with (S (nb - 1)) at 1 by lia. reflexivity. }
  assert (Hb0 : read_block (text ls tail) 0 bs = whole (seg 0)).
  { rewrite <- w_whole. apply (block_whole w 0 bs); [apply w_well|]. rewrite w_whole. apply size_pos. }
  assert (Hmake : make_partitions (text ls tail) bs sb skip (option_map Z.of_nat nrows) =
    let (ps, ss) := part_loop (text ls tail) bs sb false 0 nrows' rest in
    Ok ({| p_off := 0; p_skip := skip; p_nrows := option_map Z.of_nat nrows |} :: ps, (- Z.of_nat d)%Z :: ss)).
  { assert (Hm : make_partitions (text ls tail) bs sb skip (option_map Z.of_nat nrows) =
      Ok (part_loop (text ls tail) bs sb true skip (option_map Z.of_nat nrows) (offsets (length (text ls tail)) bs))) by (unfold make_partitions; destruct bs; [lia|reflexivity]).
    rewrite Hm, Hoff. clear Hm. cbn [part_loop]. rewrite Hb0, first_size by assumption. fold d.
    assert (Hr : match rest with [] => true | _ => false end = false) by (unfold rest; destruct (nb - 1) as [|m] eqn:Em; [lia|reflexivity]).
    rewrite Hr. cbn [andb]. rewrite Z.add_0_r. unfold nrows'. destruct nrows as [n|]; cbn [option_map].
    - destruct Hlim as [L1 _]. destruct (Z.ltb_spec 0 (Z.of_nat n)); [|lia]. destruct (Z.ltb_spec (Z.of_nat n) (- Z.of_nat d)); [lia|].
      replace (Z.of_nat n - - Z.of_nat d)%Z with (Z.of_nat n + Z.of_nat d)%Z by lia. destruct (part_loop _ _ _ _ _ _ rest). reflexivity.
    - destruct (part_loop _ _ _ _ _ _ rest). reflexivity. }
  rewrite Hmake. clear Hmake.
  pose proof (loop_ok (text ls tail) bs sb rest (map seg (seq 1 (nb - 1))) false 0 nrows') as L.
  destruct (part_loop _ _ _ _ _ _ _) as [ps ss].
  assert (Hall : concat (map seg (seq 1 (nb - 1))) = skipn (K 1) w).
  { rewrite rest_prefix. replace (S (nb - 1)) with nb by lia. rewrite K_nb. apply firstn_all2. rewrite skipn_length. lia. }
  assert (Hrows : rows_of sb 0 (skipn (K 1) w) = wanted sb 0 (skipn (K 1) (all_lines ls tail))).
  { unfold rows_of. f_equal. rewrite <- w_lines. generalize (K 1). clear. intros n. revert n. induction w as [|x l IH]; intros [|n]; try reflexivity. apply IH. }
  pose proof (split_skip (length (all_lines ls tail)) ltac:(lia) Hs ltac:(lia)) as HS. cbv zeta in HS. rewrite firstn_all in HS. fold d in HS.
  destruct HS as [HS1 HS2]. rewrite HS1 in Hrows.
  assert (L' : ss = map zlen (map (part_value (text ls tail) bs sb) ps) /\ ps <> [] /\
     concat (map (part_value (text ls tail) bs sb) ps) = limit nrows' (rows_of sb 0 (skipn (K 1) w))).
  { rewrite <- Hall. apply L; clear L.
    - unfold rest. assert (Hi : forall i, In i (seq 1 (nb - 1)) -> i < nb) by (intros i H; apply in_seq in H; lia).
      revert Hi. generalize (seq 1 (nb - 1)). induction l as [|i l IH]; intros Hi; [constructor|]. cbn [map]. constructor.
      + rewrite <- w_whole. apply block_whole; [apply w_well|]. rewrite w_whole. apply off_lt. apply Hi. left. reflexivity.
      + apply IH. intros j Hj. apply Hi. right. exact Hj.
    - assert (Hfit : Forall (fits sb false 0) (map seg (seq 1 (nb - 1)))).
      { apply Forall_forall. intros S0 HS. apply in_map_iff in HS. destruct HS as [i [<- Hi]]. apply in_seq in Hi. destruct i as [|i]; [lia|]. apply (seg_fits (S i)); lia. }
      destruct (nb - 1) as [|m] eqn:Em; [lia|]. cbn [seq map] in *. inversion Hfit. split; assumption.
    - intros S0 HS. replace (nb - 1) with (S (nb - 2)) in HS by lia. rewrite seq_S, map_app in HS. cbn [map] in HS. rewrite removelast_last in HS.
      apply in_map_iff in HS. destruct HS as [i [<- Hi]]. apply in_seq in Hi. apply seg_closed. lia.
    - replace (nb - 1) with (S (nb - 2)) by lia. rewrite seq_S, map_app. cbn [map]. rewrite last_last. rewrite seg_eq.
      replace (1 + (nb - 2)) with (nb - 1) by lia.
      replace (S (nb - 1)) with nb by lia. rewrite K_nb. pose proof K_lt_nb. intros E. apply (f_equal (@length _)) in E. rewrite firstn_length, skipn_length in E. cbn [length] in E. lia.
    - unfold nrows'. destruct nrows as [n|]; [|exact I]. cbn [option_map]. destruct Hlim as [L1 [L2 L3]]. unfold fine_limit. rewrite map_length, seq_length. split; [lia|]. split.
      + intros j Hj. rewrite firstn_map. replace (firstn j (seq 1 (nb - 1))) with (seq 1 j) by (replace (nb - 1) with (j + (nb - 1 - j)) by lia; rewrite seq_app, firstn_app, firstn_all2 by (rewrite seq_length; lia); rewrite seq_length, Nat.sub_diag, app_nil_r; reflexivity).
        rewrite rest_prefix. pose proof (K_boundary (S j) ltac:(lia) ltac:(lia)) as HB. specialize (L2 _ HB). destruct HB as [_ [HB _]].
        pose proof (K_mono 1 (S j) ltac:(lia)) as Hm.
        assert (Hr2 : rows_of sb 0 (firstn (K (S j) - K 1) (skipn (K 1) w)) = wanted sb 0 (skipn (K 1) (firstn (K (S j)) (all_lines ls tail)))).
        { unfold rows_of. f_equal. rewrite firstn_skipn_comm. replace (K 1 + (K (S j) - K 1)) with (K (S j)) by lia. rewrite <- w_lines, firstn_map.
          generalize (firstn (K (S j)) w). generalize (K 1). clear. intros n l. revert n. induction l as [|x l IH]; intros [|n]; try reflexivity. apply IH. }
        rewrite Hr2. destruct (le_lt_dec skip (K (S j))) as [G|G].
        * pose proof (split_skip (K (S j)) ltac:(lia) G ltac:(lia)) as H9. cbv zeta in H9. destruct H9 as [H9 H10]. rewrite H9. unfold zlen. rewrite app_length, H10. fold d. lia.
        * unfold wanted. cbn [skipn]. unfold zlen. pose proof (filter_len _ (fun l => negb (sb && blank l)) (skipn (K 1) (firstn (K (S j)) (all_lines ls tail)))) as Hf.
          rewrite skipn_length, firstn_length in Hf. fold d in Hd. unfold d. lia.
      + rewrite Hall, Hrows. intros Ho.
        assert (Ho' : tail <> []).
        { apply open_tail. rewrite <- (firstn_skipn (K 1) w). unfold open_end in *. rewrite existsb_app, Ho. apply orb_true_r. }
        specialize (L3 Ho'). unfold zlen. rewrite app_length, HS2. lia. }
  destruct L' as [L1 [L2 L3]]. eexists. exists ps. rewrite <- L1. split; [reflexivity|]. split; [exact L2|]. rewrite L3, Hrows. unfold nrows'.
  destruct nrows as [n|]; cbn [option_map limit answer].
  - replace (Z.to_nat (Z.of_nat n + Z.of_nat d)) with (d + n) by lia. rewrite firstn_len_app by lia. rewrite HS2. replace (d + n - d) with n by lia.
    split; [rewrite app_length, HS2; lia|]. rewrite skipn_app, HS2, Nat.sub_diag, (skipn_all2 (firstn d _)) by lia. reflexivity.
  - split; [rewrite app_length, HS2; lia|]. rewrite skipn_app, HS2, Nat.sub_diag, (skipn_all2 (firstn d _)) by lia. reflexivity.
Qed.
Lemma rows_at_skip : forall (X : Type) (l : list X) d a b s out, (0 <= a)%Z -> (a <= b)%Z -> (1 <= s)%Z ->
  rows_at l (py_range (a + Z.of_nat d) (b + Z.of_nat d) s) out -> rows_at (skipn d l) (py_range a b s) out.
Proof using All.
  clear. intros X l d a b s out Ha Hab Hs. unfold py_range.
  assert (E : range_len (a + Z.of_nat d) (b + Z.of_nat d) s = range_len a b s).
  { unfold range_len. destruct (Z.ltb_spec 0 s); [|lia]. destruct (Z.ltb_spec (a + Z.of_nat d) (b + Z.of_nat d)); destruct (Z.ltb_spec a b); try lia. f_equal. f_equal. lia. }
  rewrite E. unfold rows_at. generalize (seq 0 (Z.to_nat (range_len a b s))). intros is. revert out.
  induction is as [|i is IH]; intros out H; inversion H as [|? x ? ? [H1 H2] H3]; subst; cbn [map]; constructor; [|apply IH; exact H3].
  assert (Hp : (0 <= Z.of_nat i * s)%Z) by nia. split; [lia|]. rewrite <- H2.
  replace (Z.to_nat (a + Z.of_nat d + Z.of_nat i * s)) with (d + Z.to_nat (a + Z.of_nat i * s)) by lia. clear.
  generalize (Z.to_nat (a + Z.of_nat i * s)). intros n. revert l. induction d as [|d IH]; intros l; [reflexivity|]. destruct l as [|y l]; [destruct n; reflexivity|]. apply IH.
Qed.
Lemma csv_ok : forall nrows, match nrows with None => True | Some n => clear_limit ls tail bs sb skip n end ->
  csv_size (text ls tail) bs sb skip (option_map Z.of_nat nrows) = Ok (zlen (answer nrows)) /\
  reads_slices (answer nrows) (csv_read (text ls tail) bs sb skip (option_map Z.of_nat nrows)).
Proof using All.
  intros nrows Hlim. destruct (le_lt_dec skip (K 1)) as [Hskip|Hskip].
  - destruct (partitions_ok Hskip nrows Hlim) as [ps [H1 [H2 H3]]]. split.
    + unfold csv_size. rewrite H1. cbn [rbind snd]. rewrite zsum_concat, H3. reflexivity.
    + intros a b s Hab Hb Hs. rewrite <- H3 in Hb. rewrite (read_partitions _ _ _ _ _ ps) by assumption. rewrite <- H3.
      assert (Hf : map (part_value (text ls tail) bs sb) ps <> []) by (destruct ps; [congruence|discriminate]).
      exact (stack_reads_slices _ Hf a b s Hab Hb Hs).
  - destruct (partitions_over Hskip nrows Hlim) as [p0 [ps [H1 [H2 [H3 H4]]]]]. set (d := skip - K 1) in *. assert (Hd : 0 < d) by (unfold d; lia). split.
    + unfold csv_size. rewrite H1. cbn [rbind snd]. unfold zsum. cbn [fold_right]. fold (zsum (map zlen (map (part_value (text ls tail) bs sb) ps))).
      rewrite zsum_concat, <- H4. unfold zlen. rewrite skipn_length. f_equal. lia.
    + intros a b s Hab Hb Hs. rewrite <- H4 in Hb |- *. unfold zlen in Hb. rewrite skipn_length in Hb.
      assert (Hf : map (part_value (text ls tail) bs sb) ps <> []) by (destruct ps; [congruence|discriminate]).
      rewrite (read_partitions_over _ _ _ _ _ p0 ps (Z.of_nat d)); try assumption; try (unfold zlen; lia).
      destruct (stack_reads_slices _ Hf (a + Z.of_nat d)%Z (b + Z.of_nat d)%Z s ltac:(lia) ltac:(unfold zlen; lia) Hs) as [out [O1 O2]].
      exists out. split; [exact O1|]. apply rows_at_skip; try assumption; lia.
Qed.
End Regular.

Lemma start_le : forall ls tail k, k < length (all_lines ls tail) -> start_of ls k < length (text ls tail).
Proof.
  intros ls tail k Hk. unfold start_of, text. rewrite app_length.
  assert (H : length (flat_map (fun l => l ++ [nl]) ls) = length (flat_map (fun l => l ++ [nl]) (firstn k ls)) + length (flat_map (fun l => l ++ [nl]) (skipn k ls))).
  { rewrite <- app_length, <- flat_map_app, firstn_skipn. reflexivity. }
  rewrite H. unfold all_lines in Hk. rewrite app_length in Hk. destruct (le_lt_dec (length ls) k) as [G|G].
  - destruct tail; cbn [length] in *; lia.
  - destruct (skipn k ls) as [|l m] eqn:E; [apply (f_equal (@length _)) in E; rewrite skipn_length in E; cbn [length] in E; lia|].
    cbn [flat_map]. rewrite !app_length. cbn [length]. lia.
Qed.
Lemma one_block_ok : forall ls tail bs sb skip,
  Forall no_newline ls -> no_newline tail -> all_lines ls tail <> [] -> length (text ls tail) <= bs ->
  Forall (fun l => blank l = false) (all_lines ls tail) -> skip <= length (all_lines ls tail) ->
  let rows := skipn skip (all_lines ls tail) in
  csv_size (text ls tail) bs sb skip None = Ok (zlen rows) /\ reads_slices rows (csv_read (text ls tail) bs sb skip None).
Proof.
  intros ls tail bs sb skip H1 H2 H3 H4 H5 H6. cbv zeta.
  assert (Hn : 0 < length (all_lines ls tail)) by (destruct (all_lines ls tail); [congruence|cbn; lia]).
  assert (H0 : forall k, k < length (all_lines ls tail) -> block_of ls bs k = 0).
  { intros k Hk. apply start_le in Hk. unfold block_of. apply Nat.div_small. lia. }
  pose proof (start_le ls tail 0 Hn) as Hp.
  assert (Hr : regular ls tail bs sb skip).
  { constructor.
    - rewrite H0 by lia. symmetry. apply Nat.div_small. lia.
    - exact H6.
    - intros _ k l Hk Hb. exfalso. rewrite Forall_forall in H5. rewrite (H5 l) in Hb; [discriminate|]. eapply nth_error_In. exact Hk. }
  replace (skipn skip (all_lines ls tail)) with (wanted sb skip (all_lines ls tail)).
  - apply (csv_ok ls tail bs sb skip H1 H2 ltac:(lia) H3 Hr None I).
  - unfold wanted. apply filter_all. apply Forall_forall. intros l Hl. rewrite Forall_forall in H5. rewrite (H5 l); [rewrite andb_false_r; reflexivity|].
    rewrite <- (firstn_skipn skip (all_lines ls tail)). apply in_or_app. right. exact Hl.
Qed.
Lemma file_is_text : forall f, exists ls tail, Forall no_newline ls /\ no_newline tail /\ f = text ls tail.
Proof.
  induction f as [|c f IH].
  - exists [], []. split; [constructor|]. split; [intros []|reflexivity].
  - destruct IH as [ls [tail [H1 [H2 ->]]]]. destruct (is_nl c) eqn:E.
    + apply is_nl_iff in E. subst c. exists ([] :: ls), tail. split; [constructor; [intros []|exact H1]|]. split; [exact H2|reflexivity].
    + assert (Hc : c <> nl) by (intros ->; rewrite is_nl_nl in E; discriminate). destruct ls as [|l ls].
      * exists [], (c :: tail). split; [constructor|]. split; [intros [G|G]; [congruence|exact (H2 G)]|reflexivity].
      * exists ((c :: l) :: ls), tail. inversion H1 as [|x y G1 G2]. subst. split; [constructor; [intros [G|G]; [congruence|exact (G1 G)]|exact G2]|]. split; [exact H2|reflexivity].
Qed.
