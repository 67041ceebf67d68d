From Verif Require Import Base BaseProofs IoModel IoSpec IoProofs GadModel GadSpec GadProofs.
From Coq Require Import String.
Local Open Scope Z_scope.
Local Notation length := List.length.
Local Notation concat := List.concat.

Lemma offset_in_ok (npart : list Z) (items : nat -> list (list Z)) p types : 
  (forall i, In i types -> (i < length npart)%nat /\ zlen (items i) = nth i npart 0) -> forall N r0,
  exists r, offset_in npart p types N r0 = Ok (N + zlen (flat_map items types), r) /\ (~ In p types -> r = r0) /\
    (In p types -> exists t1 t2, types = t1 ++ p :: t2 /\ r = N + zlen (flat_map items t1)).
Proof.
  induction types as [|i types IH]; intros H N r0.
  - exists r0. cbn. unfold zlen; cbn. rewrite Z.add_0_r. split; [reflexivity|]. split; [auto|intros []].
  - destruct (H i (or_introl eq_refl)) as [Hi Hz].
    cbn [offset_in flat_map]. rewrite (nth_error_nth' npart 0 Hi). rewrite <- Hz.
    destruct (IH ltac:(intros j Hj; apply H; right; exact Hj) (N + zlen (items i)) (if Nat.eqb i p then N else r0)) as (r & E & E1 & E2).
    exists r. rewrite E. split; [rewrite zlen_app, Z.add_assoc; reflexivity|]. split.
    + intros Hn. rewrite E1 by (intros K; apply Hn; right; exact K). destruct (Nat.eqb_spec i p) as [->|]; [|reflexivity]. exfalso. apply Hn. left; reflexivity.
    + intros Hp. destruct (in_dec Nat.eq_dec p types) as [Hin|Hin].
      * destruct (E2 Hin) as (t1 & t2 & -> & ->). exists (i :: t1), t2. split; [reflexivity|]. cbn [flat_map]. rewrite zlen_app. lia.
      * destruct Hp as [->|Hp]; [|contradiction]. exists [], types. split; [reflexivity|]. rewrite E1 by exact Hin. rewrite Nat.eqb_refl. cbn. unfold zlen; cbn; lia.
Qed.
Definition header_of (sn : snapshot) : header := {| h_names := sn_named sn; h_npart := sn_npart sn; h_mass := sn_mass sn |}.
Lemma types_of_ok sn d : length (sn_mass sn) = 6%nat -> Forall (fun m => zlen m = 8) (sn_mass sn) -> (cd_types d = NoTypes -> cd_name d = "Mass"%string) ->
  types_of (header_of sn) d = Ok (stored_types sn d).
Proof.
  intros Hl Hm Hn. unfold types_of, stored_types. cbn [h_mass header_of].
  assert (filter (fun i => zero8 (nth i (sn_mass sn) [])) (seq 0 6) = filter (fun i => zero_mass (nth i (sn_mass sn) [])) (seq 0 6)) as ->.
  { apply filter_ext_in. intros i Hi. apply in_seq in Hi. apply zero8_spec. rewrite Forall_forall in Hm. apply Hm. apply nth_In. lia. }
  destruct (cd_types d); [reflexivity| |]; destruct (String.eqb_spec (cd_name d) "Mass"); try reflexivity.
  exfalso. auto.
Qed.
Definition dtype_ok (d : coldef) (dt : dtype) : Prop :=
  dt_items dt = cd_items d /\ dt_int dt = (match cd_base d with Auto => String.eqb (cd_name d) "ID" | Fixed i _ => i end) /\ 1 <= dt_size dt.
Lemma precision_ok sn d b w : block_ok sn d b -> bl_width b = w -> exists i q, precision d (Some (w / cd_items d)) = Ok (i, q) /\ q * cd_items d = w /\
  i = (match cd_base d with Auto => String.eqb (cd_name d) "ID" | Fixed i _ => i end).
Proof.
  intros (_ & Hi & Hb & _) <-. unfold precision. destruct (cd_base d) as [|i s].
  - destruct Hb as [-> | ->]; rewrite Z.div_mul by lia; eauto.
  - destruct Hb as [Hs ->]. eauto.
Qed.
Lemma precision_none sn d b : block_ok sn d b -> exists i q, precision d None = Ok (i, q) /\ 1 <= q /\
  i = (match cd_base d with Auto => String.eqb (cd_name d) "ID" | Fixed i _ => i end).
Proof.
  intros (_ & Hi & Hb & _). unfold precision. destruct (cd_base d) as [|i s].
  - eexists _, _. split; [reflexivity|]. split; [destruct (String.eqb _ _); lia|reflexivity].
  - destruct Hb as [Hs _]. eauto.
Qed.
Lemma width_pos sn d b : block_ok sn d b -> 1 <= bl_width b.
Proof. intros (_ & Hi & Hb & _). destruct (cd_base d); [lia|nia]. Qed.
Lemma stored_widths sn d b : block_ok sn d b -> Forall (fun x => zlen x = bl_width b) (stored_items sn d b).
Proof.
  intros (_ & _ & _ & _ & _ & H). unfold stored_items. apply Forall_forall. intros x Hx. apply in_flat_map in Hx. destruct Hx as (i & Hi & Hx).
  destruct (H i Hi) as (_ & _ & F). rewrite Forall_forall in F. auto.
Qed.
Lemma scan_column_ok sn p d b file pre post s : length (sn_npart sn) = 6%nat -> length (sn_mass sn) = 6%nat -> Forall (fun m => zlen m = 8) (sn_mass sn) ->
  block_ok sn d b -> zlen (stored_items sn d b) * bl_width b < 2 ^ 31 ->
  file = pre ++ block_bytes sn d b ++ post -> sc_ptr s = zlen pre ->
  exists off dt, scan_column file (header_of sn) p s d = Ok {| sc_ptr := zlen (pre ++ block_bytes sn d b); sc_offsets := (cd_name d, off) :: sc_offsets s;
      sc_dtype := if has_column sn p d then sc_dtype s ++ [(cd_name d, dt)] else sc_dtype s |} /\
    dtype_ok d dt /\ (stored_items sn d b <> [] -> dt_size dt = bl_width b) /\ (In p (stored_types sn d) -> located file off (dt_size dt) (bl_items b p)).
Proof.
  intros Hn Hm Hms Hb Hsm Hf Hp. pose proof (width_pos _ _ _ Hb) as Hw. pose proof (stored_widths _ _ _ Hb) as Hws.
  pose proof Hb as (Hnm & Hi & _ & Hty & Hnd & Hit).
  unfold scan_column. rewrite types_of_ok by assumption. cbn [rbind].
  destruct (offset_in_ok (sn_npart sn) (bl_items b) p (stored_types sn d)) with (N := 0) (r0 := 0) as (r & E & _ & E2).
  { intros i Hi'. destruct (Hit i Hi') as (A & B & _). split; [lia|exact B]. }
  cbn [h_npart header_of h_names]. rewrite E. cbn [rbind]. rewrite Z.add_0_l. fold (stored_items sn d b).
  pose proof (wf_concat_len _ _ _ eq_refl Hws) as Lc.
  destruct (Z.eqb_spec (zlen (stored_items sn d b)) 0) as [Ez|Ez].
  - (* no particles *)
    assert (stored_items sn d b = []) as E0 by (destruct (stored_items sn d b); [reflexivity|rewrite zlen_cons in Ez; pose proof (zlen_nonneg l0); lia]).
    destruct (precision_none _ _ _ Hb) as (i & q & Ep & Hq & Hint). cbn [rbind]. rewrite Ep. cbn [rbind fst snd].
    eexists _, {| dt_int := i; dt_prec := q; dt_items := cd_items d |}. split; [|split; [|split]].
    + unfold block_bytes. rewrite E0, app_nil_r, Hp. reflexivity.
    + repeat split; [exact Hint|]. unfold dt_size; cbn [dt_prec dt_items]. nia.
    + intros K. contradiction.
    + intros Hin. assert (bl_items b p = []) as ->.
      { destruct (bl_items b p) as [|x l] eqn:Ex; [reflexivity|]. exfalso.
        assert (In x (stored_items sn d b)) as K by (apply in_flat_map; exists p; split; [exact Hin|rewrite Ex; left; reflexivity]). rewrite E0 in K. exact K. }
      exists pre, (block_bytes sn d b ++ post). cbn. repeat split; auto.
  - assert (Hpos : 1 <= zlen (stored_items sn d b)) by (pose proof (zlen_nonneg (stored_items sn d b)); lia).
    assert (Hbb : block_bytes sn d b = (if sn_named sn then frame (bl_name b) else []) ++ frame (concat (stored_items sn d b)))
      by (unfold block_bytes; destruct (stored_items sn d b); [cbn in Hpos; unfold zlen in Hpos; cbn in Hpos; lia|reflexivity]).
    set (pre' := pre ++ (if sn_named sn then frame (bl_name b) else [])).
    assert (Hptr : (if sn_named sn then sc_ptr s + 4 + 8 + 4 else sc_ptr s) = zlen pre').
    { unfold pre'. rewrite zlen_app, Hp. destruct (sn_named sn); [rewrite zlen_frame; lia|unfold zlen at 3; cbn; lia]. }
    rewrite Hptr. set (n := zlen (concat (stored_items sn d b))) in *.
    assert (F1 : file = pre' ++ le4 n ++ (concat (stored_items sn d b) ++ le4 n ++ post)).
    { rewrite Hf, Hbb. unfold frame at 2. fold n. unfold pre'. rewrite <- !app_assoc. reflexivity. }
    assert (F2 : file = (pre' ++ le4 n ++ concat (stored_items sn d b)) ++ le4 n ++ post) by (rewrite F1, <- !app_assoc; reflexivity).
    assert (Hn4 : i4 (le4 n) = n) by (apply i4_le4; nia).
    assert (R1 : read_i4 file (zlen pre') = Ok n) by (rewrite F1, read_i4_at, Hn4; reflexivity).
    assert (R2 : read_i4 file (zlen pre' + 4 + n) = Ok n).
    { rewrite F2. replace (zlen pre' + 4 + n) with (zlen (pre' ++ le4 n ++ concat (stored_items sn d b))) by (rewrite !zlen_app, zlen_le4; fold n; lia).
      rewrite read_i4_at, Hn4. reflexivity. }
    rewrite R1. cbn [rbind]. rewrite R2. cbn [rbind].
    rewrite Z.eqb_refl. cbn [negb orb].
    assert (Hdiv : n / zlen (stored_items sn d b) = bl_width b) by (rewrite Lc, Z.mul_comm; apply Z.div_mul; lia).
    rewrite Hdiv, <- Lc, Z.eqb_refl. cbn [negb rbind].
    destruct (precision_ok _ _ _ _ Hb eq_refl) as (i & q & Ep & Hq & Hint). rewrite Ep. cbn [rbind fst snd].
    eexists _, {| dt_int := i; dt_prec := q; dt_items := cd_items d |}. split; [|split; [|split]].
    + unfold has_column. do 2 f_equal. rewrite Hbb, app_assoc. fold pre'. rewrite zlen_app, zlen_frame. fold n. lia.
    + repeat split; [exact Hint|]. unfold dt_size; cbn [dt_prec dt_items]. lia.
    + intros _. exact Hq.
    + intros Hin. destruct (E2 Hin) as (t1 & t2 & Et & Er).
      assert (Ei : stored_items sn d b = flat_map (bl_items b) t1 ++ bl_items b p ++ flat_map (bl_items b) t2).
      { unfold stored_items. rewrite Et, flat_map_app. reflexivity. }
      assert (Hw1 : Forall (fun x => zlen x = bl_width b) (flat_map (bl_items b) t1) /\ Forall (fun x => zlen x = bl_width b) (bl_items b p)).
      { rewrite Ei in Hws. apply Forall_app in Hws. destruct Hws as [A B]. apply Forall_app in B. tauto. }
      exists (pre' ++ le4 n ++ concat (flat_map (bl_items b) t1)), (concat (flat_map (bl_items b) t2) ++ le4 n ++ post).
      split; [|split].
      * rewrite F1, Ei, !concat_app, <- !app_assoc. reflexivity.
      * rewrite !zlen_app, zlen_le4, Er, Z.add_0_l. rewrite (wf_concat_len _ _ _ eq_refl (proj1 Hw1)). lia.
      * unfold dt_size. cbn [dt_prec dt_items]. rewrite Hq. apply Hw1.
Qed.
