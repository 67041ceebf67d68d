From Verif Require Import Base BaseProofs IoModel IoSpec IoProofs GadModel GadSpec.
From Coq Require Import String.
Local Open Scope Z_scope.
Local Notation length := List.length.
Local Notation concat := List.concat.

Lemma u4_le4 n : 0 <= n < 2 ^ 32 -> u4 (le4 n) = n.
Proof.
  intros H. unfold u4, le4.
  replace (n / 65536) with (n / 256 / 256) by (rewrite Z.div_div by lia; reflexivity).
  replace (n / 16777216) with (n / 256 / 256 / 256) by (rewrite !Z.div_div by lia; reflexivity).
  pose proof (Z.div_mod n 256 ltac:(lia)). pose proof (Z.div_mod (n / 256) 256 ltac:(lia)). pose proof (Z.div_mod (n / 256 / 256) 256 ltac:(lia)).
  assert (0 <= n / 256 / 256 / 256 < 256).
  { rewrite !Z.div_div by lia. change (256 * 256 * 256) with 16777216. split; [apply Z.div_pos; lia|]. apply Z.div_lt_upper_bound; lia. }
  rewrite (Z.mod_small (n / 256 / 256 / 256) 256) by lia. lia.
Qed.
Lemma zlen_le4 n : zlen (le4 n) = 4. Proof. reflexivity. Qed.
Lemma i4_le4 n : 0 <= n < 2 ^ 31 -> i4 (le4 n) = n.
Proof. intros H. unfold i4. rewrite u4_le4 by lia. destruct (Z.ltb_spec n (2 ^ 31)); lia. Qed.
Lemma i4_le4_high n : 2 ^ 31 <= n < 2 ^ 32 -> i4 (le4 n) = n - 2 ^ 32.
Proof. intros H. unfold i4. rewrite u4_le4 by lia. destruct (Z.ltb_spec n (2 ^ 31)); lia. Qed.
Lemma zlen_frame x : zlen (frame x) = zlen x + 8.
Proof. unfold frame. rewrite !zlen_app, !zlen_le4. lia. Qed.
Lemma zero8_spec m : zlen m = 8 -> zero8 m = zero_mass m.
Proof.
  intros H. unfold zlen in H. do 8 (destruct m as [|? m]; [cbn in H; lia|]). destruct m; [|cbn in H; lia].
  unfold zero8, zero_mass. cbn [firstn skipn forallb]. rewrite !andb_true_r.
  destruct (list_eq_dec Z.eq_dec _ _) as [E|E].
  - injection E as -> -> -> -> -> -> -> ->. reflexivity.
  - destruct (list_eq_dec Z.eq_dec _ _) as [E'|E'].
    + injection E' as -> -> -> -> -> -> -> ->. reflexivity.
    + apply not_true_is_false. intros K. rewrite !andb_true_iff, orb_true_iff in K.
      destruct K as [(K1 & K2 & K3 & K4 & K5 & K6 & K7) K8].
      apply Z.eqb_eq in K1, K2, K3, K4, K5, K6, K7. destruct K8 as [K8|K8]; apply Z.eqb_eq in K8; subst; congruence.
Qed.
Lemma fromfile_one (pre b post : list Z) : 1 <= zlen b -> fromfile (pre ++ b ++ post) (zlen pre) (zlen b) 1 = [b].
Proof.
  intros H. pose proof (fromfile_ok pre (zlen b) [b] post 0 1 H) as K.
  cbn [concat] in K. rewrite app_nil_r in K. replace (zlen pre + 0 * zlen b) with (zlen pre) in K by lia. rewrite K.
  - reflexivity.
  - repeat constructor.
  - lia.
  - lia.
  - unfold zlen; cbn; lia.
Qed.
Lemma read_i4_at pre n post : read_i4 (pre ++ le4 n ++ post) (zlen pre) = Ok (i4 (le4 n)).
Proof.
  unfold read_i4. pose proof (zlen_nonneg pre). destruct (Z.ltb_spec (zlen pre) 0); [lia|].
  change 4 with (zlen (le4 n)). rewrite fromfile_one by (rewrite zlen_le4; lia). reflexivity.
Qed.
Lemma sub_item (pre : list Z) k l post i x : 0 <= k -> Forall (fun r => zlen r = k) l -> nth_error l i = Some x ->
  sub (pre ++ concat l ++ post) (zlen pre + k * Z.of_nat i) (zlen pre + k * Z.of_nat i + k) = x.
Proof.
  intros Hk Hl Hx. assert (Hi : (i < length l)%nat) by (apply nth_error_Some; congruence).
  destruct (concat_item k l (Z.of_nat i) Hk Hl) as (r & E & Er); [unfold zlen; lia|].
  rewrite Nat2Z.id in E. assert (r = x) as -> by congruence. rewrite <- Er.
  pose proof (wf_concat_len (zlen l) k l eq_refl Hl) as L.
  replace (zlen pre + k * Z.of_nat i + k) with (zlen pre + (Z.of_nat i + 1) * k) by lia.
  replace (k * Z.of_nat i) with (Z.of_nat i * k) by lia.
  rewrite sub_app_r by nia.
  rewrite sub_app_l; [reflexivity|nia|]. unfold zlen in L |- *. nia.
Qed.
Lemma map_seq_nth {A} (f : nat -> A) l : (forall i x, nth_error l i = Some x -> f i = x) -> map f (seq 0 (length l)) = l.
Proof.
  intros H. apply nth_error_ext. intros i. rewrite nth_error_map'.
  destruct (nth_error l i) as [x|] eqn:E.
  - assert ((i < length l)%nat) by (apply nth_error_Some; congruence).
    rewrite (nth_error_nth' _ 0%nat) by (rewrite seq_length; lia). rewrite seq_nth by lia. cbn. f_equal. apply H. exact E.
  - apply nth_error_None in E. assert (nth_error (seq 0 (length l)) i = None) as -> by (apply nth_error_None; rewrite seq_length; lia). reflexivity.
Qed.
Lemma zlen_header sn defs : snapshot_ok sn defs -> zlen (header_bytes sn) = 256.
Proof.
  intros (_ & Hn & _ & Hm & Hms & Hr & _). unfold header_bytes. rewrite !zlen_app.
  rewrite (wf_concat_len 6 4 (map le4 (sn_npart sn))), (wf_concat_len 6 8 (sn_mass sn)).
  - lia.
  - unfold zlen; lia.
  - exact Hms.
  - rewrite zlen_map. unfold zlen; lia.
  - apply Forall_map. apply Forall_forall. intros; apply zlen_le4.
Qed.
Lemma zlen_start sn defs : snapshot_ok sn defs -> zlen (start_bytes sn) = if sn_named sn then 280 else 264.
Proof.
  intros H. pose proof (zlen_header _ _ H) as L. destruct H as (Hs & _). unfold start_bytes. rewrite zlen_app, zlen_frame, L.
  destruct (sn_named sn); [rewrite zlen_frame, Hs|cbn]; reflexivity.
Qed.
Lemma read_header_ok sn defs rest : snapshot_ok sn defs ->
  read_header (start_bytes sn ++ rest) = Ok {| h_names := sn_named sn; h_npart := sn_npart sn; h_mass := sn_mass sn |}.
Proof.
  intros H. pose proof (zlen_header _ _ H) as L. destruct H as (Hs & Hn & Hnp & Hm & Hms & Hr & _).
  unfold read_header.
  assert (read_i4 (start_bytes sn ++ rest) 0 = Ok (if sn_named sn then 8 else 256)) as ->.
  { unfold start_bytes. destruct (sn_named sn).
    - unfold frame. rewrite Hs, <- !app_assoc. exact (read_i4_at [] 8 _).
    - unfold frame. rewrite L, <- !app_assoc. exact (read_i4_at [] 256 _). }
  cbn [rbind].
  assert (fromfile (start_bytes sn ++ rest) (if (if sn_named sn then 8 else 256) =? 8 then 4 + 8 + 4 else 0) 260 1 = [le4 256 ++ header_bytes sn]) as ->.
  { assert (L2 : zlen (le4 256 ++ header_bytes sn) = 260) by (rewrite zlen_app, L; reflexivity).
    unfold start_bytes. destruct (sn_named sn).
    - cbn [Z.eqb Pos.eqb]. unfold frame at 2. rewrite L. rewrite <- L2 at 1.
      assert (L3 : zlen (frame (sn_name sn)) = 4 + 8 + 4) by (rewrite zlen_frame; lia). rewrite <- L3.
      replace ((frame (sn_name sn) ++ le4 256 ++ header_bytes sn ++ le4 256) ++ rest)
        with (frame (sn_name sn) ++ (le4 256 ++ header_bytes sn) ++ (le4 256 ++ rest)) by (rewrite <- !app_assoc; reflexivity).
      apply fromfile_one. lia.
    - cbn [Z.eqb Pos.eqb]. unfold frame. rewrite L. rewrite <- L2 at 1.
      replace (([] ++ le4 256 ++ header_bytes sn ++ le4 256) ++ rest)
        with ([] ++ (le4 256 ++ header_bytes sn) ++ (le4 256 ++ rest)) by (cbn [app]; rewrite <- !app_assoc; reflexivity).
      change 0 with (zlen (@nil Z)) at 1. apply fromfile_one. lia. }
  assert (sub (le4 256 ++ header_bytes sn) 4 260 = header_bytes sn) as ->.
  { replace 260 with (zlen (le4 256) + zlen (header_bytes sn)) by (rewrite L; reflexivity).
    replace 4 with (zlen (le4 256) + 0) by reflexivity. rewrite sub_app_r by lia. apply sub_full. }
  apply f_equal. f_equal.
  - destruct (sn_named sn); reflexivity.
  - rewrite <- Hn at 1. apply map_seq_nth. intros i x Hx.
    unfold header_bytes.
    pose proof (sub_item [] 4 (map le4 (sn_npart sn)) (concat (sn_mass sn) ++ sn_rest sn) i (le4 x)) as K. cbn [app] in K.
    change (zlen (@nil Z)) with 0 in K. rewrite !Z.add_0_l in K. rewrite K.
    + apply u4_le4. rewrite Forall_forall in Hnp. apply Hnp. eapply nth_error_In; eassumption.
    + lia.
    + apply Forall_map. apply Forall_forall. intros; apply zlen_le4.
    + rewrite nth_error_map'. rewrite Hx. reflexivity.
  - rewrite <- Hm at 1. apply map_seq_nth. intros i x Hx. unfold header_bytes.
    pose proof (sub_item (concat (map le4 (sn_npart sn))) 8 (sn_mass sn) (sn_rest sn) i x ltac:(lia) Hms Hx) as K.
    rewrite (wf_concat_len 6 4 (map le4 (sn_npart sn))) in K.
    + exact K.
    + rewrite zlen_map. unfold zlen; lia.
    + apply Forall_map. apply Forall_forall. intros; apply zlen_le4.
Qed.

(* a column in the file *)
Definition located (file : list Z) (off k : Z) (col : list (list Z)) : Prop :=
  exists pre post, file = pre ++ concat col ++ post /\ off = zlen pre /\ Forall (fun r => zlen r = k) col.
Lemma located_read file off k col start stop step : located file off k col -> 1 <= k -> 0 <= start <= stop -> stop <= zlen col -> 1 <= step ->
  binary_read_col file off k start stop step (range_len start stop step) = Ok (select col (py_range start stop step)).
Proof.
  intros (pre & post & -> & -> & Hr) Hk Hs Hle Hst.
  unfold binary_read_col. pose proof (zlen_nonneg pre).
  destruct (Z.ltb_spec (zlen pre) 0); [lia|].
  destruct (Z.ltb_spec (zlen pre + start * k) 0); [nia|].
  rewrite fromfile_ok; try lia; [|exact Hr].
  replace (start + (stop - start)) with stop by lia.
  rewrite py_slice_step by lia. cbn [rbind].
  rewrite every_sub_select by lia.
  unfold assign_all, zlen at 1. rewrite select_length by (apply range_in_range; lia).
  replace (Z.of_nat (length (py_range start stop step))) with (zlen (py_range start stop step)) by reflexivity.
  rewrite py_range_length, Z.eqb_refl. reflexivity.
Qed.
