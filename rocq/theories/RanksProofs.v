From Verif Require Import Base BaseProofs RanksModel RanksSpec.

(* split every conditional of the goal, innermost first *)
Ltac ifs :=
  repeat match goal with
  | |- context [if ?c then _ else _] =>
      lazymatch c with context [if _ then _ else _] => fail | _ => destruct c eqn:? end
  end.

(* ---------- offsets ---------- *)
Lemma offsets_from_length a cs : length (offsets_from a cs) = length cs.
Proof. revert a; induction cs; intros; simpl; auto. Qed.

Lemma offsets_from_app a cs ds :
  offsets_from a (cs ++ ds) = offsets_from a cs ++ offsets_from (a + zsum cs) ds.
Proof.
  revert a; induction cs as [|c cs IH]; intros a; cbn [app offsets_from zsum fold_right].
  - f_equal; lia.
  - rewrite IH. cbn [app]. do 3 f_equal. unfold zsum. lia.
Qed.

Lemma offsets_from_nth cs : forall a r,
  (r < length cs)%nat -> nth_error (offsets_from a cs) r = Some (a + zsum (firstn r cs)).
Proof.
  induction cs as [|c cs IH]; intros a r H; [simpl in H; lia|].
  destruct r as [|r]; cbn [offsets_from nth_error firstn zsum fold_right].
  - f_equal; lia.
  - rewrite IH by (simpl in H; lia). f_equal. unfold zsum. lia.
Qed.

(* consecutive pieces of a list, cut by counts *)
Lemma concat_subs {A} (data : list A) cs : forall a,
  0 <= a -> Forall (fun c => 0 <= c) cs ->
  concat (map (fun oc => sub data (fst oc) (fst oc + snd oc)) (combine (offsets_from a cs) cs))
  = sub data a (a + zsum cs).
Proof.
  induction cs as [|c cs IH]; intros a Ha H; cbn [offsets_from combine map concat zsum fold_right].
  - rewrite Z.add_0_r, sub_empty. reflexivity.
  - inversion H as [|? ? Hc Hcs]; subst. rewrite IH by (auto; lia). cbn [fst snd].
    pose proof (zsum_nonneg cs Hcs).
    rewrite sub_app_split by lia. f_equal. unfold zsum. lia.
Qed.

Lemma subs_lengths {A} (data : list A) cs : forall a,
  0 <= a -> Forall (fun c => 0 <= c) cs -> a + zsum cs <= zlen data ->
  map zlen (map (fun oc => sub data (fst oc) (fst oc + snd oc)) (combine (offsets_from a cs) cs)) = cs.
Proof.
  induction cs as [|c cs IH]; intros a Ha H Hle; [reflexivity|].
  inversion H as [|? ? Hc Hcs]; subst. cbn [offsets_from combine map fst snd zsum fold_right] in *.
  pose proof (zsum_nonneg cs Hcs). fold (zsum cs) in Hle.
  rewrite sub_length by lia. f_equal; [lia|]. apply IH; auto; lia.
Qed.

(* ---------- Gather ---------- *)
Lemma write_at_ok {A} (pre : list A) (d : list A) (k : nat) :
  (length d <= k)%nat ->
  write_at (map Some pre ++ repeat None k) (zlen pre) d
  = map Some (pre ++ d) ++ repeat None (k - length d).
Proof.
  intros H. unfold write_at, zlen. rewrite Nat2Z.id.
  rewrite firstn_app, map_length, Nat.sub_diag. cbn [firstn]. rewrite app_nil_r.
  rewrite firstn_all2 by (rewrite map_length; lia).
  rewrite skipn_app, map_length.
  rewrite skipn_all2 by (rewrite map_length; lia). cbn [app].
  replace (length pre + length d - length pre)%nat with (length d) by lia.
  rewrite map_app, <- app_assoc. do 2 f_equal.
  clear -H. revert k H; induction (length d) as [|n IH]; intros k H; [rewrite Nat.sub_0_r; reflexivity|].
  destruct k; [lia|]. simpl. apply IH. lia.
Qed.

Lemma gatherv_ok {A} (parts : list (list A)) : forall pre,
  gatherv (map Some pre ++ repeat None (length (concat parts))) parts
          (offsets_from (zlen pre) (map zlen parts)) = map Some (pre ++ concat parts).
Proof.
  induction parts as [|d ds IH]; intros pre; cbn [concat map offsets_from gatherv].
  - simpl. rewrite !app_nil_r. reflexivity.
  - rewrite app_length. rewrite write_at_ok by lia.
    replace (length d + length (concat ds) - length d)%nat with (length (concat ds)) by lia.
    rewrite <- zlen_app. rewrite IH. rewrite <- app_assoc. reflexivity.
Qed.

Lemma gather_ok {A} root d (parts : list (list A)) :
  gather_array root (map (fun p => (d, p)) parts) = Ok (map Some (concat parts)).
Proof.
  unfold gather_array.
  assert (map fst (map (fun p : list A => (d, p)) parts) = map (fun _ => d) parts) as ->
    by (rewrite map_map; reflexivity).
  assert (map snd (map (fun p : list A => (d, p)) parts) = parts) as -> by (rewrite map_map; apply map_id).
  assert (forall l : list (list A), existsb (fun x => negb (x =? d)) (map (fun _ => d) l) = false) as Hex.
  { induction l; simpl; [reflexivity|]. rewrite Z.eqb_refl. exact IHl. }
  assert (gather_flag root (map (fun _ => d) parts) = false) as ->.
  { unfold gather_flag. destruct parts as [|p ps]; simpl; destruct root as [[|?]|]; auto. }
  assert (existsb (fun x => negb (x =? hd 0 (map (fun _ => d) parts))) (map (fun _ => d) parts) = false) as ->.
  { destruct parts as [|p ps]; [reflexivity|]. simpl. rewrite Z.eqb_refl. apply Hex. }
  f_equal. rewrite <- zlen_concat. unfold zlen at 1. rewrite Nat2Z.id.
  exact (gatherv_ok parts []).
Qed.

Lemma existsb_neq_forall d l :
  existsb (fun x => negb (x =? d)) l = false <-> Forall (fun x => x = d) l.
Proof.
  split.
  - intros H. apply Forall_forall. intros x Hx.
    destruct (Z.eqb_spec x d); [assumption|].
    exfalso. assert (existsb (fun x => negb (x =? d)) l = true); [|congruence].
    apply existsb_exists. exists x. split; [exact Hx|]. destruct (Z.eqb_spec x d); [congruence|reflexivity].
  - intros H. induction H as [|x l -> _ IH]; [reflexivity|]. simpl. rewrite Z.eqb_refl. exact IH.
Qed.

(* with the root on rank 0 (or everywhere), mismatching arrays are refused *)
Lemma gather_mismatch {A} root (arrays : list (Z * list A)) x y :
  root = None \/ root = Some 0%nat ->
  In x arrays -> In y arrays -> fst x <> fst y -> gather_array root arrays = Err ValueError.
Proof.
  intros Hroot Hx Hy Hne. unfold gather_array.
  assert (gather_flag root (map fst arrays) = true) as ->; [|reflexivity].
  assert (forall ds d, map fst arrays = d :: ds -> existsb (fun x => negb (x =? d)) ds = true) as H.
  { intros ds d E. destruct (existsb (fun x0 => negb (x0 =? d)) ds) eqn:Ex; [reflexivity|exfalso].
    apply existsb_neq_forall in Ex. rewrite Forall_forall in Ex.
    assert (forall z, In z arrays -> fst z = d) as Hall.
    { intros z Hz. apply (in_map fst) in Hz. rewrite E in Hz. destruct Hz as [->|Hz]; auto. }
    apply Hne. rewrite (Hall x Hx), (Hall y Hy). reflexivity. }
  unfold gather_flag. destruct arrays as [|a l]; [destruct Hx|].
  destruct Hroot as [-> | ->]; cbn [map]; apply H; reflexivity.
Qed.

(* ---------- Scatter ---------- *)
Lemma sum_even_length n k j :
  zsum (map (even_length n k) (seq 0 j)) = Z.of_nat j * (n / k) + Z.min (Z.of_nat j) (Z.max 0 (n mod k)).
Proof.
  induction j as [|j IH]; [simpl; lia|].
  rewrite seq_S, map_app, zsum_app, IH. cbn [map zsum fold_right]. unfold even_length.
  simpl Nat.add. destruct (Z.ltb_spec (Z.of_nat j) (n mod k)); lia.
Qed.

Lemma even_length_total n k : 0 <= n -> (1 <= k)%nat ->
  zsum (map (even_length n (Z.of_nat k)) (seq 0 k)) = n.
Proof.
  intros Hn Hk. rewrite sum_even_length.
  pose proof (Z.mod_pos_bound n (Z.of_nat k) ltac:(lia)).
  pose proof (Z.div_mod n (Z.of_nat k) ltac:(lia)). lia.
Qed.

Lemma even_length_nonneg n k r : 0 <= n -> 1 <= k -> 0 <= even_length n k r.
Proof.
  intros Hn Hk. unfold even_length. pose proof (Z.div_pos n k Hn ltac:(lia)).
  destruct (_ <? _); lia.
Qed.

Lemma even_lengths_nonneg n k : 0 <= n -> (1 <= k)%nat ->
  Forall (fun c => 0 <= c) (map (even_length n (Z.of_nat k)) (seq 0 k)).
Proof.
  intros Hn Hk. apply Forall_forall. intros x Hx. apply in_map_iff in Hx.
  destruct Hx as (r & <- & _). apply even_length_nonneg; lia.
Qed.

Lemma scatter_even_ok {A} nranks (data : list A) :
  (1 <= nranks)%nat ->
  exists parts, scatter_array 0 nranks data None = Ok parts /\
    concat parts = data /\ length parts = nranks /\
    map zlen parts = map (even_length (zlen data) (Z.of_nat nranks)) (seq 0 nranks).
Proof.
  intros Hn. unfold scatter_array. cbn [Nat.eqb negb].
  set (cs := map (even_length (zlen data) (Z.of_nat nranks)) (seq 0 nranks)).
  assert (Forall (fun c => 0 <= c) cs) as Hcs by (apply even_lengths_nonneg; [apply zlen_nonneg|exact Hn]).
  assert (zsum cs = zlen data) as Hsum by (apply even_length_total; [apply zlen_nonneg|exact Hn]).
  eexists. split; [reflexivity|]. split; [|split].
  - unfold offsets_of. rewrite concat_subs by (auto; lia).
    rewrite Z.add_0_l, Hsum. apply sub_full.
  - rewrite map_length, combine_length. unfold offsets_of. rewrite offsets_from_length.
    unfold cs. rewrite map_length, seq_length. lia.
  - apply subs_lengths; auto; lia.
Qed.

Lemma even_balanced n k : balanced (map (even_length n k) (seq 0 (Z.to_nat k))).
Proof.
  intros a b Ha Hb. apply in_map_iff in Ha, Hb.
  destruct Ha as (i & <- & _), Hb as (j & <- & _). unfold even_length.
  destruct (_ <? _), (_ <? _); lia.
Qed.

Lemma scatter_counts_ok {A} nranks (data : list A) cs :
  length cs = nranks -> Forall (fun c => 0 <= c) cs -> zsum cs = zlen data ->
  exists parts, scatter_array 0 nranks data (Some cs) = Ok parts /\
    concat parts = data /\ map zlen parts = cs.
Proof.
  intros Hl Hnn Hsum. unfold scatter_array. rewrite Hl, Nat.eqb_refl. cbn [negb Nat.eqb].
  rewrite Hsum, Z.eqb_refl. cbn [negb].
  assert (existsb (fun c => c <? 0) cs = false) as ->.
  { apply not_true_is_false. intros H. apply existsb_exists in H. destruct H as (x & Hx & Hlt).
    rewrite Forall_forall in Hnn. specialize (Hnn x Hx). lia. }
  eexists. split; [reflexivity|]. split.
  - unfold offsets_of. rewrite concat_subs by (auto; lia). rewrite Z.add_0_l, Hsum. apply sub_full.
  - apply subs_lengths; auto; lia.
Qed.

Lemma scatter_bad_counts {A} nranks (data : list A) cs :
  length cs <> nranks \/ zsum cs <> zlen data ->
  scatter_array 0 nranks data (Some cs) = Err ValueError.
Proof.
  intros H. unfold scatter_array. destruct (Nat.eqb_spec (length cs) nranks) as [E|E]; [|reflexivity].
  cbn [negb Nat.eqb]. destruct (Z.eqb_spec (zsum cs) (zlen data)); [tauto|reflexivity].
Qed.

(* ---------- FrontPad ---------- *)
Lemma last_items_sub {A} (l : list A) k :
  0 <= k <= zlen l -> last_items l k = sub l (zlen l - k) (zlen l).
Proof.
  intros H. unfold last_items. destruct (Z.ltb_spec 0 k).
  - unfold sub. replace (zlen l - (zlen l - k)) with k by lia.
    replace (Z.to_nat (zlen l - k)) with (length l - Z.to_nat k)%nat by (unfold zlen in *; lia).
    rewrite firstn_all2; [reflexivity|]. rewrite skipn_length. unfold zlen in *; lia.
  - replace (zlen l - k) with (zlen l) by lia. rewrite sub_empty. reflexivity.
Qed.

Lemma torecv_entry_before mystart front nend n :
  0 <= n -> nend <= mystart + front -> 0 <= front ->
  torecv_entry mystart front nend n = Z.min (Z.max 0 (nend - mystart)) n.
Proof.
  intros H1 H2 H3. unfold torecv_entry.
  cbv zeta. ifs; lia.
Qed.

Lemma torecv_entry_after mystart front nend n :
  0 <= n -> mystart + front + n <= nend -> 0 <= front ->
  torecv_entry mystart front nend n = 0.
Proof.
  intros H1 H2 H3. unfold torecv_entry.
  cbv zeta. ifs; lia.
Qed.

Definition plan_from (a : Z) (lens : list Z) (mystart front : Z) : list Z :=
  map (fun on => torecv_entry mystart front (fst on + snd on) (snd on))
      (combine (offsets_from a lens) lens).

Lemma plan_from_cons a c cs mystart front :
  plan_from a (c :: cs) mystart front
  = torecv_entry mystart front (a + c) c :: plan_from (a + c) cs mystart front.
Proof. reflexivity. Qed.

(* ranks before the receiver *)
Lemma plan_before {A} (parts : list (list A)) : forall a mystart front,
  0 <= front -> a + zlen (concat parts) <= mystart + front ->
  zsum (plan_from a (map zlen parts) mystart front)
    = Z.min (Z.max 0 (a + zlen (concat parts) - mystart)) (zlen (concat parts)) /\
  concat (map (fun ai => last_items (fst ai) (snd ai))
      (combine parts (plan_from a (map zlen parts) mystart front)))
    = sub (concat parts) (Z.min (zlen (concat parts)) (Z.max 0 (mystart - a))) (zlen (concat parts)).
Proof.
  induction parts as [|p ps IH]; intros a mystart front Hf Hle.
  - cbn. split; [unfold zlen; simpl; lia|]. unfold sub. rewrite skipn_nil, firstn_nil. reflexivity.
  - cbn [map concat] in *. rewrite plan_from_cons. cbn [zsum fold_right combine map concat].
    rewrite zlen_app in *. pose proof (zlen_nonneg p) as Hp. pose proof (zlen_nonneg (concat ps)) as Hps.
    rewrite torecv_entry_before by lia.
    destruct (IH (a + zlen p) mystart front) as [IH1 IH2]; [lia|lia|]. split.
    + unfold zsum in IH1. rewrite IH1. lia.
    + rewrite IH2. cbn [fst snd]. rewrite last_items_sub by lia.
      set (k := Z.min (Z.max 0 (a + zlen p - mystart)) (zlen p)).
      destruct (Z.ltb_spec 0 (a + zlen p - mystart)) as [H|H].
      * replace (Z.min (zlen (concat ps)) (Z.max 0 (mystart - (a + zlen p)))) with 0 by lia.
        rewrite sub_full.
        rewrite <- (sub_app_split (p ++ concat ps) _ (zlen p) (zlen p + zlen (concat ps))) by lia.
        f_equal.
        -- rewrite sub_app_l by lia. f_equal. lia.
        -- replace (sub (p ++ concat ps) (zlen p) (zlen p + zlen (concat ps)))
             with (sub (p ++ concat ps) (zlen p + 0) (zlen p + zlen (concat ps))) by (f_equal; lia).
           rewrite sub_app_r by lia. symmetry. apply sub_full.
      * assert (k = 0) as -> by lia. rewrite Z.sub_0_r, sub_empty. cbn [app].
        replace (Z.min (zlen p + zlen (concat ps)) (Z.max 0 (mystart - a)))
          with (zlen p + Z.min (zlen (concat ps)) (Z.max 0 (mystart - (a + zlen p)))) by lia.
        rewrite sub_app_r by lia. reflexivity.
Qed.

(* the receiver and the ranks after it contribute nothing *)
Lemma plan_after {A} (parts : list (list A)) : forall a mystart front,
  0 <= front -> mystart + front <= a ->
  zsum (plan_from a (map zlen parts) mystart front) = 0 /\
  concat (map (fun ai => last_items (fst ai) (snd ai))
      (combine parts (plan_from a (map zlen parts) mystart front))) = [].
Proof.
  induction parts as [|p ps IH]; intros a mystart front Hf Hle; [split; reflexivity|].
  cbn [map]. rewrite plan_from_cons. cbn [zsum fold_right combine map concat].
  pose proof (zlen_nonneg p). rewrite torecv_entry_after by lia.
  destruct (IH (a + zlen p) mystart front) as [IH1 IH2]; [lia|lia|].
  rewrite IH2. split; [unfold zsum in IH1; lia|reflexivity].
Qed.

Lemma plan_from_app a cs ds mystart front :
  plan_from a (cs ++ ds) mystart front
  = plan_from a cs mystart front ++ plan_from (a + zsum cs) ds mystart front.
Proof.
  unfold plan_from. rewrite offsets_from_app.
  assert (forall (l1 l2 m1 m2 : list Z), length l1 = length m1 ->
    combine (l1 ++ l2) (m1 ++ m2) = combine l1 m1 ++ combine l2 m2) as Hc.
  { induction l1; intros l2 [|m m1] m2 H; try discriminate; [reflexivity|]. simpl. f_equal. apply IHl1. simpl in H. lia. }
  rewrite Hc by apply offsets_from_length. apply map_app.
Qed.

Lemma combine_app' {A B} (l1 l2 : list A) (m1 m2 : list B) :
  length l1 = length m1 -> combine (l1 ++ l2) (m1 ++ m2) = combine l1 m1 ++ combine l2 m2.
Proof.
  revert m1; induction l1 as [|x l1 IH]; intros [|m m1] H; try discriminate; [reflexivity|].
  simpl. f_equal. apply IH. simpl in H. lia.
Qed.

Lemma plan_from_length a cs ms f : length (plan_from a cs ms f) = length cs.
Proof. unfold plan_from. rewrite map_length, combine_length, offsets_from_length. lia. Qed.

(* the receiving plan of a rank with `pre` before it *)
Lemma plan_rank {A} (pre post : list (list A)) front :
  0 <= front ->
  let lens := map zlen (pre ++ post) in
  let n := zlen (concat pre) in
  zsum (torecv lens n front) = Z.min n front /\
  concat (map (fun ai => last_items (fst ai) (snd ai)) (combine (pre ++ post) (torecv lens n front)))
    = lastn (Z.min front n) (concat pre).
Proof.
  intros Hf lens n.
  assert (torecv lens n front = plan_from 0 (map zlen pre) (n - front) front ++
                                plan_from (zsum (map zlen pre)) (map zlen post) (n - front) front) as ->.
  { unfold lens. rewrite map_app. unfold torecv. change (offsets_of (map zlen pre ++ map zlen post)) with (offsets_from 0 (map zlen pre ++ map zlen post)).
    fold (plan_from 0 (map zlen pre ++ map zlen post) (n - front) front). rewrite plan_from_app. reflexivity. }
  rewrite <- zlen_concat. fold n.
  pose proof (zlen_nonneg (concat pre)) as Hn. fold n in Hn.
  destruct (plan_before pre 0 (n - front) front) as [B1 B2]; [lia|fold n; lia|].
  destruct (plan_after post n (n - front) front) as [C1 C2]; [lia|lia|].
  fold n in B1, B2. split.
  - rewrite zsum_app, B1, C1. lia.
  - rewrite combine_app', map_app, concat_app by (rewrite plan_from_length, map_length; reflexivity).
    rewrite B2, C2, app_nil_r.
    unfold lastn, sub. replace (Z.min n (Z.max 0 (n - front - 0))) with (n - Z.min front n) by lia.
    rewrite firstn_all2.
    + f_equal. unfold n, zlen. lia.
    + rewrite skipn_length. unfold n, zlen in *. lia.
Qed.

Lemma offsets_split {A} (pre : list (list A)) p post :
  nth_error (offsets_of (map zlen (pre ++ p :: post))) (length pre) = Some (zlen (concat pre)).
Proof.
  unfold offsets_of. rewrite offsets_from_nth by (rewrite map_length, app_length; simpl; lia).
  rewrite map_app, firstn_app, map_length, Nat.sub_diag.
  rewrite firstn_all2 by (rewrite map_length; lia). cbn [firstn]. rewrite app_nil_r, <- zlen_concat.
  f_equal.
Qed.

Lemma nth_error_combine {A B} (l : list A) (m : list B) i :
  nth_error (combine l m) i =
  match nth_error l i, nth_error m i with Some a, Some b => Some (a, b) | _, _ => None end.
Proof.
  revert m i; induction l as [|x l IH]; intros [|y m] [|i]; simpl; try reflexivity.
  - destruct (nth_error l i); reflexivity.
  - apply IH.
Qed.

Lemma offsets_before {A} (arrays : list (list A)) r :
  (r < length arrays)%nat ->
  nth_error (offsets_of (map zlen arrays)) r = Some (zlen (before arrays r)).
Proof.
  intros H. unfold offsets_of. rewrite offsets_from_nth by (rewrite map_length; exact H).
  rewrite firstn_map, <- zlen_concat. reflexivity.
Qed.

Lemma plans_nth {A} (arrays : list (list A)) fronts r f :
  (r < length arrays)%nat -> nth_error fronts r = Some f ->
  nth_error (map (fun of => torecv (map zlen arrays) (fst of) (snd of))
                 (combine (offsets_of (map zlen arrays)) fronts)) r
  = Some (torecv (map zlen arrays) (zlen (before arrays r)) f).
Proof.
  intros Hr Hf. rewrite nth_error_map', nth_error_combine, offsets_before, Hf by exact Hr. reflexivity.
Qed.

Lemma plan_rank' {A} (arrays : list (list A)) r f :
  0 <= f ->
  zsum (torecv (map zlen arrays) (zlen (before arrays r)) f) = Z.min (zlen (before arrays r)) f /\
  concat (map (fun ai => last_items (fst ai) (snd ai))
     (combine arrays (torecv (map zlen arrays) (zlen (before arrays r)) f)))
  = lastn (Z.min f (zlen (before arrays r))) (before arrays r).
Proof.
  intros Hf. pose proof (plan_rank (firstn r arrays) (skipn r arrays) f Hf) as H.
  rewrite firstn_skipn in H. exact H.
Qed.

(* the full behaviour of FrontPadArray *)
Lemma front_pad_ok {A} (arrays : list (list A)) fronts :
  length fronts = length arrays -> Forall (fun f => 0 <= f) fronts ->
  (forall r f, nth_error fronts r = Some f -> f <= zlen (before arrays r)) ->
  exists out, front_pad arrays fronts = Ok out /\ length out = length arrays /\
    forall r a f, nth_error arrays r = Some a -> nth_error fronts r = Some f ->
      nth_error out r = Some (lastn f (before arrays r) ++ a).
Proof.
  intros Hl Hnn Hle. unfold front_pad.
  set (plans := map _ (combine _ fronts)).
  assert (Hplen : length plans = length arrays).
  { unfold plans. rewrite map_length, combine_length. unfold offsets_of. rewrite offsets_from_length, map_length. lia. }
  assert (existsb (fun pf => negb (zsum (fst pf) =? snd pf)) (combine plans fronts) = false) as ->.
  { apply not_true_is_false. intros H. apply existsb_exists in H. destruct H as ([p f] & Hin & Hneq).
    apply In_nth_error in Hin. destruct Hin as (r & Hr). rewrite nth_error_combine in Hr.
    destruct (nth_error plans r) eqn:Ep; [|discriminate]. destruct (nth_error fronts r) eqn:Ef; [|discriminate].
    injection Hr as -> ->.
    assert (r < length arrays)%nat as Hra by (rewrite <- Hplen; apply nth_error_Some; congruence).
    unfold plans in Ep. rewrite (plans_nth _ _ _ _ Hra Ef) in Ep. injection Ep as <-.
    assert (0 <= f) as Hf0. { rewrite Forall_forall in Hnn. apply Hnn. eapply nth_error_In; eauto. }
    destruct (plan_rank' arrays r f Hf0) as [E _]. specialize (Hle r f Ef). cbn [fst snd] in Hneq.
    rewrite E in Hneq. destruct (Z.eqb_spec (Z.min (zlen (before arrays r)) f) f); [discriminate|lia]. }
  eexists. split; [reflexivity|]. split.
  - rewrite map_length, combine_length. lia.
  - intros r a f Ha Hf. rewrite nth_error_map', nth_error_combine, Ha.
    assert (r < length arrays)%nat as Hra by (apply nth_error_Some; congruence).
    unfold plans. rewrite (plans_nth _ _ _ _ Hra Hf). cbn [option_map fst snd]. do 2 f_equal.
    assert (0 <= f) as Hf0. { rewrite Forall_forall in Hnn. apply Hnn. eapply nth_error_In; eauto. }
    destruct (plan_rank' arrays r f Hf0) as [_ E]. rewrite E. f_equal. specialize (Hle r f Hf). lia.
Qed.

(* one rank asking for too much makes the call fail as a whole *)
Lemma front_pad_too_large {A} (arrays : list (list A)) fronts r f :
  length fronts = length arrays -> nth_error fronts r = Some f -> zlen (before arrays r) < f ->
  front_pad arrays fronts = Err ValueError.
Proof.
  intros Hl Hf Hlt. unfold front_pad.
  set (plans := map _ (combine _ fronts)).
  assert (existsb (fun pf => negb (zsum (fst pf) =? snd pf)) (combine plans fronts) = true) as ->; [|reflexivity].
  assert (r < length arrays)%nat as Hra by (rewrite <- Hl; apply nth_error_Some; congruence).
  apply existsb_exists. exists (torecv (map zlen arrays) (zlen (before arrays r)) f, f). split.
  - apply nth_error_In with r. rewrite nth_error_combine. unfold plans. rewrite (plans_nth _ _ _ _ Hra Hf), Hf. reflexivity.
  - cbn [fst snd]. pose proof (zlen_nonneg (before arrays r)).
    destruct (plan_rank' arrays r f) as [E _]; [lia|]. rewrite E.
    destruct (Z.eqb_spec (Z.min (zlen (before arrays r)) f) f); [lia|reflexivity].
Qed.

(* ---------- telescoping bounds ---------- *)
Lemma concat_telescope {A} (rows : list A) (f : nat -> Z) : forall n k,
  (forall i j, (i <= j)%nat -> f i <= f j) -> 0 <= f k ->
  concat (map (fun b => sub rows (fst b) (snd b)) (map (fun r => (f r, f (S r))) (seq k n)))
  = sub rows (f k) (f (k + n)%nat).
Proof.
  induction n as [|n IH]; intros k Hm H0; cbn [seq map concat].
  - rewrite Nat.add_0_r, sub_empty. reflexivity.
  - rewrite IH; [|exact Hm|pose proof (Hm k (S k)); lia]. cbn [fst snd].
    rewrite sub_app_split.
    + f_equal. f_equal. lia.
    + pose proof (Hm k (S k)). lia.
    + apply Hm. lia.
Qed.

Lemma lstart_mono size n i j : 0 <= size -> (1 <= n)%nat -> (i <= j)%nat -> lstart size n i <= lstart size n j.
Proof.
  intros Hs Hn H. unfold lstart. apply Z.div_le_mono; [lia|]. nia.
Qed.
Lemma lstart_0 size n : lstart size n 0 = 0.
Proof. unfold lstart. simpl. apply Zdiv_0_l. Qed.
Lemma lstart_full size n : (1 <= n)%nat -> lstart size n n = size.
Proof. intros H. unfold lstart. rewrite Z.mul_comm. apply Z.div_mul. lia. Qed.

Lemma lstart_step size n r : 0 <= size -> (1 <= n)%nat ->
  size / Z.of_nat n <= lstart size n (S r) - lstart size n r <= size / Z.of_nat n + 1.
Proof.
  intros Hs Hn. unfold lstart. set (k := Z.of_nat n). assert (1 <= k) as Hk by lia.
  replace (Z.of_nat (S r) * size) with (Z.of_nat r * size + size) by lia.
  set (a := Z.of_nat r * size).
  pose proof (Z.div_mod a k ltac:(lia)) as Ha. pose proof (Z.mod_pos_bound a k ltac:(lia)).
  pose proof (Z.div_mod size k ltac:(lia)) as Hz. pose proof (Z.mod_pos_bound size k ltac:(lia)).
  assert (Heq : a + size = k * (a / k + size / k) + (a mod k + size mod k)) by lia.
  destruct (Z.ltb_spec (a mod k + size mod k) k) as [Hlt|Hge].
  - assert ((a + size) / k = a / k + size / k) as ->; [|lia].
    symmetry. apply Z.div_unique with (r := a mod k + size mod k); lia.
  - assert ((a + size) / k = a / k + size / k + 1) as ->; [|lia].
    symmetry. apply Z.div_unique with (r := a mod k + size mod k - k); lia.
Qed.

Lemma load_rows {A} (rows : list A) nranks : (1 <= nranks)%nat ->
  concat (catalog_rows rows (load_file (zlen rows) nranks)) = rows.
Proof.
  intros Hn. unfold catalog_rows, load_file. cbn [fc_bounds].
  rewrite concat_telescope.
  - rewrite lstart_0. cbn [Nat.add]. rewrite lstart_full by exact Hn. apply sub_full.
  - intros i j H. apply lstart_mono; auto. apply zlen_nonneg.
  - rewrite lstart_0. lia.
Qed.

Lemma zlen_sub_exact {A} (rows : list A) a b : 0 <= a <= b -> b <= zlen rows -> zlen (sub rows a b) = b - a.
Proof. apply sub_length. Qed.

Lemma load_balanced {A} (rows : list A) nranks : (1 <= nranks)%nat ->
  balanced (map zlen (catalog_rows rows (load_file (zlen rows) nranks))).
Proof.
  intros Hn x y Hx Hy. unfold catalog_rows, load_file in *. cbn [fc_bounds] in *.
  rewrite !map_map in Hx, Hy. apply in_map_iff in Hx, Hy.
  destruct Hx as (i & <- & Hi), Hy as (j & <- & Hj). apply in_seq in Hi, Hj. cbn [fst snd].
  pose proof (zlen_nonneg rows) as Hz.
  assert (forall r, (r < nranks)%nat -> zlen (sub rows (lstart (zlen rows) nranks r) (lstart (zlen rows) nranks (S r)))
     = lstart (zlen rows) nranks (S r) - lstart (zlen rows) nranks r) as HL.
  { intros r Hr. apply sub_length.
    - split; [rewrite <- (lstart_0 (zlen rows) nranks); apply lstart_mono; lia|apply lstart_mono; lia].
    - pose proof (lstart_full (zlen rows) nranks Hn) as E.
      pose proof (lstart_mono (zlen rows) nranks (S r) nranks Hz Hn ltac:(lia)). lia. }
  rewrite !HL by lia.
  pose proof (lstart_step (zlen rows) nranks i Hz Hn). pose proof (lstart_step (zlen rows) nranks j Hz Hn). lia.
Qed.

Lemma query_rows {A} (rows : list A) c a b : (1 <= length (fc_bounds c))%nat ->
  0 <= fc_start c + a -> a <= b ->
  concat (catalog_rows rows (query_range c a b)) = sub rows (fc_start c + a) (fc_start c + b).
Proof.
  intros Hn H1 H2. unfold catalog_rows, query_range. cbn [fc_bounds].
  set (n := length (fc_bounds c)) in *.
  rewrite (concat_telescope rows (fun r => fc_start c + a + lstart (b - a) n r)).
  - rewrite lstart_0. cbn [Nat.add]. rewrite lstart_full by exact Hn. f_equal; lia.
  - intros i j H. pose proof (lstart_mono (b - a) n i j). lia.
  - rewrite lstart_0. lia.
Qed.

(* ---------- random numbers ---------- *)
Lemma serial_draw_skip {A B} (sampler : Z -> list A -> list B) c :
  prefix_stable sampler -> forall q seeds args,
  (q * c <= length args)%nat -> (q <= length seeds)%nat ->
  skipn (q * c) (serial_draw sampler c seeds args)
  = serial_draw sampler c (skipn q seeds) (skipn (q * c) args).
Proof.
  intros [Hlen _]. induction q as [|q IH]; intros seeds args H1 H2; [reflexivity|].
  destruct seeds as [|s ss]; [simpl in H2; lia|]. cbn [serial_draw skipn].
  replace (S q * c)%nat with (q * c + c)%nat by lia.
  assert (forall (T : Type) (l : list T) n m, skipn (n + m) l = skipn n (skipn m l)) as Hss.
  { clear. intros T l n m. revert l; induction m as [|m IH]; intros l; [rewrite Nat.add_0_r; reflexivity|].
    destruct l as [|x l]; [rewrite !skipn_nil; reflexivity|].
    replace (n + S m)%nat with (S (n + m)) by lia. simpl. apply IH. }
  rewrite !Hss. rewrite skipn_app.
  assert (length (sampler s (firstn c args)) = c) as Hc.
  { rewrite Hlen, firstn_length. nia. }
  rewrite Hc, Nat.sub_diag. rewrite (skipn_all2 (sampler s (firstn c args))) by lia. cbn [app skipn].
  apply IH; [rewrite skipn_length; nia|simpl in H2; lia].
Qed.

Lemma serial_draw_length {A B} (sampler : Z -> list A -> list B) c :
  prefix_stable sampler -> forall seeds args,
  (length args <= length seeds * c)%nat ->
  length (serial_draw sampler c seeds args) = length args.
Proof.
  intros [Hlen _]. induction seeds as [|s ss IH]; intros args H; cbn [serial_draw].
  - simpl in H. destruct args; simpl in *; lia.
  - rewrite app_length, Hlen, firstn_length, IH, skipn_length; [lia|]. rewrite skipn_length. simpl in H. lia.
Qed.

Lemma firstn_firstn' {A} (l : list A) m n : firstn m (firstn n l) = firstn (Nat.min m n) l.
Proof. apply firstn_firstn. Qed.

Lemma rng_loop_ok {A B} (sampler : Z -> list A -> list B) (c : nat) seeds args :
  prefix_stable sampler -> (1 <= c)%nat -> (length args <= length seeds * c)%nat ->
  forall fuel q m, (m <= fuel)%nat -> (q * c + m <= length args)%nat ->
  rng_loop fuel sampler seeds (Z.of_nat c) (Z.of_nat q) (firstn m (skipn (q * c) args))
  = Ok (firstn m (skipn (q * c) (serial_draw sampler c seeds args))).
Proof.
  intros Hst Hc Hseeds. pose proof Hst as [Hlen Hpre].
  induction fuel as [|fuel IH]; intros q m Hm Hle.
  - assert (m = 0%nat) as -> by lia. reflexivity.
  - destruct m as [|m]; [reflexivity|].
    assert (q < length seeds)%nat as Hq by nia.
    rewrite (serial_draw_skip sampler c Hst q seeds args) by lia.
    destruct (nth_error seeds q) as [s|] eqn:Es; [|apply nth_error_None in Es; lia].
    assert (skipn q seeds = s :: skipn (S q) seeds) as Esk.
    { clear -Es. revert seeds Es; induction q as [|q IH]; intros [|x l] Es; try discriminate; simpl in *; [congruence|].
      apply IH. exact Es. }
    rewrite Esk. cbn [serial_draw].
    set (G := skipn (q * c) args).
    assert (Hlg : (length G = length args - q * c)%nat) by (unfold G; apply skipn_length).
    assert (Hrun : length (firstn (S m) G) = S m) by (rewrite firstn_length; lia).
    destruct (firstn (S m) G) as [|g0 gs] eqn:Eg; [discriminate|]. rewrite <- Eg.
    replace (rng_loop (S fuel) sampler seeds (Z.of_nat c) (Z.of_nat q) (firstn (S m) G))
      with (match znth seeds (Z.of_nat q) with
        | None => Err IndexError
        | Some seed =>
            let chunk := sampler seed (firstn (Z.to_nat (Z.min (zlen (firstn (S m) G)) (Z.of_nat c))) (firstn (S m) G)) in
            let! rest := rng_loop fuel sampler seeds (Z.of_nat c) (Z.of_nat q + 1)
                                  (skipn (Z.to_nat (Z.min (zlen (firstn (S m) G)) (Z.of_nat c))) (firstn (S m) G)) in
            Ok (chunk ++ rest) end).
    2:{ rewrite Eg. reflexivity. }
    unfold znth. destruct (Z.ltb_spec (Z.of_nat q) 0); [lia|]. rewrite Nat2Z.id, Es.
    assert (zlen (firstn (S m) G) = Z.of_nat (S m)) as -> by (unfold zlen; rewrite Eg; rewrite Hrun; reflexivity).
    replace (Z.to_nat (Z.min (Z.of_nat (S m)) (Z.of_nat c))) with (Nat.min (S m) c) by lia.
    cbv zeta. replace (Z.of_nat q + 1) with (Z.of_nat (S q)) by lia.
    rewrite firstn_firstn'. replace (Nat.min (Nat.min (S m) c) (S m)) with (Nat.min (S m) c) by lia.
    assert (HX : length (sampler s (firstn c G)) = Nat.min c (length G)) by (rewrite Hlen, firstn_length; reflexivity).
    destruct (Nat.le_gt_cases (S m) c) as [Hmc|Hmc].
    + replace (Nat.min (S m) c) with (S m) by lia.
      rewrite (skipn_all2 (firstn (S m) G)) by (rewrite firstn_length; lia).
      assert (rng_loop fuel sampler seeds (Z.of_nat c) (Z.of_nat (S q)) [] = Ok []) as ->
        by (destruct fuel; reflexivity).
      cbn [rbind]. rewrite app_nil_r. f_equal.
      rewrite firstn_app. replace (S m - length (sampler s (firstn c G)))%nat with 0%nat by lia.
      rewrite firstn_O, app_nil_r. rewrite <- Hpre, firstn_firstn'.
      replace (Nat.min (S m) c) with (S m) by lia. reflexivity.
    + replace (Nat.min (S m) c) with c by lia.
      rewrite skipn_firstn_comm.
      assert (skipn c G = skipn (S q * c) args) as Hsk.
      { unfold G. clear. replace (S q * c)%nat with (q * c + c)%nat by lia. revert args; induction (q * c)%nat as [|k IH]; intros args; [reflexivity|].
        destruct args; simpl; [apply skipn_nil|apply IH]. }
      rewrite Hsk. rewrite IH by lia. cbn [rbind]. f_equal.
      rewrite firstn_app. rewrite (firstn_all2 (sampler s (firstn c G))) by lia.
      replace (S m - length (sampler s (firstn c G)))%nat with (S m - c)%nat by lia.
      do 2 f_equal. rewrite (serial_draw_skip sampler c Hst (S q) seeds args) by lia.
      reflexivity.
Qed.

Lemma rall_map_ok {A B} (f : A -> res B) (g : A -> B) l :
  (forall x, In x l -> f x = Ok (g x)) -> rall (map f l) = Ok (map g l).
Proof.
  induction l as [|x l IH]; intros H; [reflexivity|]. cbn [map rall].
  rewrite H by (left; reflexivity). cbn [rbind]. rewrite IH by (intros; apply H; right; assumption). reflexivity.
Qed.

Lemma before_cut {A} (arrays : list (list A)) r a :
  nth_error arrays r = Some a ->
  before arrays r = firstn (length (before arrays r)) (concat arrays) /\
  a = firstn (length a) (skipn (length (before arrays r)) (concat arrays)) /\
  (length (before arrays r) + length a <= length (concat arrays))%nat.
Proof.
  intros H. unfold before.
  assert (concat arrays = concat (firstn r arrays) ++ a ++ concat (skipn (S r) arrays)) as E.
  { clear -H. revert arrays H; induction r as [|r IH]; intros [|x l] H; try discriminate; simpl in *; [congruence|].
    rewrite (IH l H), app_assoc. reflexivity. }
  rewrite E. split; [|split].
  - rewrite firstn_app, Nat.sub_diag, firstn_all, firstn_O, app_nil_r. reflexivity.
  - rewrite skipn_app, Nat.sub_diag, skipn_all. cbn [app skipn].
    rewrite firstn_app, Nat.sub_diag, firstn_all, firstn_O, app_nil_r. reflexivity.
  - rewrite !app_length. lia.
Qed.

Lemma mpi_random_ok {A B} (sampler : Z -> list A -> list B) seeds c (args : list (list A)) :
  prefix_stable sampler -> 1 <= c -> zlen seeds = rng_nchunks (zlen (concat args)) c ->
  exists out, mpi_random sampler seeds c args = Ok out /\
    map zlen out = map zlen args /\
    concat out = serial_draw sampler (Z.to_nat c) seeds (concat args).
Proof.
  intros Hst Hc Hseeds. unfold mpi_random.
  set (offs := offsets_of (map zlen args)).
  set (skips := map (fun start => start - start / c * c) offs).
  set (G := concat args). set (S' := serial_draw sampler (Z.to_nat c) seeds G).
  assert (Hoffs : forall r, (r < length args)%nat -> nth_error offs r = Some (zlen (before args r)))
    by (intros; apply offsets_before; assumption).
  assert (Hol : length offs = length args) by (unfold offs, offsets_of; rewrite offsets_from_length, map_length; reflexivity).
  assert (Hsk : forall r, (r < length args)%nat ->
     nth_error skips r = Some (zlen (before args r) - zlen (before args r) / c * c)).
  { intros r Hr. unfold skips. rewrite nth_error_map', Hoffs by exact Hr. reflexivity. }
  assert (Hsl : length skips = length args) by (unfold skips; rewrite map_length; exact Hol).
  assert (Hmod : forall x, 0 <= x -> 0 <= x - x / c * c <= x /\ x - x / c * c < c).
  { intros x Hx. pose proof (Z.div_mod x c ltac:(lia)). pose proof (Z.mod_pos_bound x c ltac:(lia)).
    pose proof (Z.div_pos x c Hx ltac:(lia)). nia. }
  destruct (front_pad_ok args skips Hsl) as (padded & HP & Hpl & Hpad).
  - apply Forall_forall. intros x Hx. apply In_nth_error in Hx. destruct Hx as (r & Hr).
    assert (r < length args)%nat by (rewrite <- Hsl; apply nth_error_Some; congruence).
    rewrite Hsk in Hr by assumption. injection Hr as <-. apply Hmod, zlen_nonneg.
  - intros r f Hr. assert (r < length args)%nat by (rewrite <- Hsl; apply nth_error_Some; congruence).
    rewrite Hsk in Hr by assumption. injection Hr as <-. apply Hmod, zlen_nonneg.
  - rewrite HP. cbn [rbind].
    assert (Hnch : (length G <= length seeds * Z.to_nat c)%nat).
    { unfold rng_nchunks in Hseeds. fold G in Hseeds. pose proof (zlen_nonneg G) as HG.
      assert (zlen G <= zlen seeds * c).
      { rewrite Hseeds. pose proof (Z.div_mod (zlen G + c - 1) c ltac:(lia)).
        pose proof (Z.mod_pos_bound (zlen G + c - 1) c ltac:(lia)). nia. }
      unfold zlen in *. nia. }
    assert (HS' : length S' = length G) by (apply serial_draw_length; assumption).
    set (cut := fun x : (Z * Z) * list A =>
         sub S' (fst (fst x)) (fst (fst x) + (zlen (snd x) - snd (fst x)))).
    rewrite (rall_map_ok _ cut).
    + eexists. split; [reflexivity|].
      assert (Hcuts : map cut (combine (combine offs skips) padded) =
        map (fun oc => sub S' (fst oc) (fst oc + snd oc)) (combine (offsets_from 0 (map zlen args)) (map zlen args))).
      { apply nth_error_ext. intros r. rewrite !nth_error_map', !nth_error_combine.
        fold (offsets_of (map zlen args)). fold offs.
        destruct (Nat.lt_ge_cases r (length args)) as [Hr|Hr].
        - rewrite Hoffs, Hsk by exact Hr. rewrite nth_error_map'.
          destruct (nth_error args r) as [a|] eqn:Ea; [|apply nth_error_None in Ea; lia].
          rewrite (Hpad r a _ Ea (Hsk r Hr)). cbn [option_map]. unfold cut. cbn [fst snd].
          do 2 f_equal. rewrite zlen_app. unfold lastn, zlen at 2. rewrite skipn_length.
          pose proof (Hmod (zlen (before args r)) (zlen_nonneg _)). unfold zlen in *. lia.
        - assert (nth_error offs r = None) as -> by (apply nth_error_None; lia). reflexivity. }
      rewrite Hcuts. split.
      * apply subs_lengths; [lia| |].
        -- apply Forall_forall. intros x Hx. apply in_map_iff in Hx. destruct Hx as (l & <- & _). apply zlen_nonneg.
        -- rewrite Z.add_0_l, <- zlen_concat. fold G. unfold zlen. rewrite HS'. lia.
      * rewrite concat_subs; [|lia|].
        -- rewrite Z.add_0_l, <- zlen_concat. fold G.
           replace (zlen G) with (zlen S') by (unfold zlen; rewrite HS'; reflexivity).
           apply sub_full.
        -- apply Forall_forall. intros x Hx. apply in_map_iff in Hx. destruct Hx as (l & <- & _). apply zlen_nonneg.
    + intros [[start skip] p] Hin. apply In_nth_error in Hin. destruct Hin as (r & Hr).
      rewrite !nth_error_combine in Hr.
      destruct (nth_error offs r) as [o|] eqn:Eo; [|discriminate].
      destruct (nth_error skips r) as [k|] eqn:Ek; [|discriminate].
      destruct (nth_error padded r) as [p'|] eqn:Ep; [|discriminate].
      injection Hr as -> -> ->.
      assert (Hr : (r < length args)%nat) by (rewrite <- Hol; apply nth_error_Some; congruence).
      destruct (nth_error args r) as [a|] eqn:Ea; [|apply nth_error_None in Ea; lia].
      rewrite (Hpad r a skip Ea Ek) in Ep. injection Ep as <-.
      rewrite Hoffs in Eo by exact Hr. injection Eo as <-.
      rewrite Hsk in Ek by exact Hr. injection Ek as Ek.
      destruct (before_cut args r a Ea) as (B1 & B2 & B3).
      pose proof (Hmod (zlen (before args r)) (zlen_nonneg _)) as Hm.
      set (b := length (before args r)) in *.
      assert (Hzb : zlen (before args r) = Z.of_nat b) by reflexivity.
      set (q := Z.to_nat (Z.of_nat b / c)).
      assert (Hq : Z.of_nat b / c = Z.of_nat q) by (unfold q; rewrite Z2Nat.id; [reflexivity|apply Z.div_pos; lia]).
      rewrite Hzb, Hq in Hm, Ek.
      assert (Hqc : (q * Z.to_nat c <= b)%nat) by nia.
      assert (Hskn : skip = Z.of_nat (b - q * Z.to_nat c)) by nia.
      assert (Hp : lastn skip (before args r) ++ a
                 = firstn (b - q * Z.to_nat c + length a) (skipn (q * Z.to_nat c) G)).
      { unfold lastn. fold b. rewrite Hskn, Nat2Z.id.
        replace (b - (b - q * Z.to_nat c))%nat with (q * Z.to_nat c)%nat by lia.
        fold G in B1, B2, B3. rewrite firstn_plus, <- skipn_plus.
        replace (q * Z.to_nat c + (b - q * Z.to_nat c))%nat with b by lia.
        f_equal; [|exact B2]. rewrite B1, skipn_firstn_comm. reflexivity. }
      rewrite Hp, Hzb, Hq.
      pose proof (rng_loop_ok sampler (Z.to_nat c) seeds G Hst ltac:(lia) Hnch) as HL.
      rewrite Z2Nat.id in HL by lia.
      rewrite HL.
      * cbn [rbind]. f_equal. fold S'. unfold cut. cbn [fst snd].
        rewrite Hskn, Nat2Z.id.
        assert (zlen (firstn (b - q * Z.to_nat c + length a) (skipn (q * Z.to_nat c) G)) = Z.of_nat (b - q * Z.to_nat c + length a)) as ->.
        { unfold zlen. rewrite firstn_length, skipn_length. fold G in B3. lia. }
        unfold sub.
        replace (Z.to_nat (Z.of_nat b + (Z.of_nat (b - q * Z.to_nat c + length a) - Z.of_nat (b - q * Z.to_nat c)) - Z.of_nat b))
          with (length a) by lia.
        rewrite Nat2Z.id.
        rewrite skipn_firstn_comm.
        replace (b - q * Z.to_nat c + length a - (b - q * Z.to_nat c))%nat with (length a) by lia.
        f_equal. rewrite <- skipn_plus. f_equal. lia.
      * rewrite firstn_length, skipn_length. fold G in B3. lia.
      * fold G in B3. lia.
Qed.

(* two layouts of the same items give the same numbers *)
Lemma mpi_random_layout {A B} (sampler : Z -> list A -> list B) seeds c (args args' : list (list A)) :
  prefix_stable sampler -> 1 <= c -> zlen seeds = rng_nchunks (zlen (concat args)) c ->
  concat args = concat args' ->
  exists out out', mpi_random sampler seeds c args = Ok out /\ mpi_random sampler seeds c args' = Ok out' /\
    concat out = concat out' /\ map zlen out = map zlen args /\ map zlen out' = map zlen args'.
Proof.
  intros Hst Hc Hs He.
  destruct (mpi_random_ok sampler seeds c args Hst Hc Hs) as (o & H1 & H2 & H3).
  rewrite He in Hs. destruct (mpi_random_ok sampler seeds c args' Hst Hc Hs) as (o' & H1' & H2' & H3').
  exists o, o'. rewrite He in H3. repeat split; auto; congruence.
Qed.

(* ---------- uniform catalogs ---------- *)
Lemma zsum_telescope (f : nat -> Z) n k :
  zsum (map (fun r => f (S r) - f r) (seq k n)) = f (k + n)%nat - f k.
Proof.
  revert k; induction n as [|n IH]; intros k; cbn [seq map zsum fold_right].
  - rewrite Nat.add_0_r. lia.
  - fold (zsum (map (fun r => f (S r) - f r) (seq (S k) n))). rewrite IH.
    replace (S k + n)%nat with (k + S n)%nat by lia. lia.
Qed.

Lemma random_catalog_total nranks n : (1 <= nranks)%nat -> n <> 0 ->
  exists sizes, random_catalog_sizes (repeat n nranks) = Ok sizes /\ zsum sizes = n /\ length sizes = nranks.
Proof.
  intros Hr Hn. unfold random_catalog_sizes. rewrite repeat_length.
  assert (forallb (fun m => m =? 0) (repeat n nranks) = false) as ->.
  { destruct nranks; [lia|]. simpl. destruct (Z.eqb_spec n 0); [congruence|reflexivity]. }
  assert (existsb (fun m => m =? 0) (repeat n nranks) = false) as ->.
  { clear Hr. induction nranks; simpl; [reflexivity|]. destruct (Z.eqb_spec n 0); [congruence|exact IHnranks]. }
  eexists. split; [reflexivity|].
  assert (forall k m, map (fun rn => lstart (snd rn) nranks (S (fst rn)) - lstart (snd rn) nranks (fst rn))
          (combine (seq k m) (repeat n m)) = map (fun r => lstart n nranks (S r) - lstart n nranks r) (seq k m)) as E.
  { intros k m; revert k; induction m as [|m IH]; intros k; [reflexivity|]. cbn [seq repeat combine map fst snd]. f_equal. apply IH. }
  rewrite E. split.
  - rewrite (zsum_telescope (lstart n nranks)). cbn [Nat.add]. rewrite lstart_0, lstart_full by exact Hr. lia.
  - rewrite map_length, seq_length. reflexivity.
Qed.

Lemma uniform_seeded_total draw s nranks : (1 <= nranks)%nat ->
  (forall r r', draw (Some s) r = draw (Some s) r') -> draw (Some s) 0%nat <> 0 ->
  exists sizes, uniform_catalog_sizes draw (Some s) nranks = Ok sizes /\ zsum sizes = draw (Some s) 0%nat.
Proof.
  intros Hr Hd Hn. unfold uniform_catalog_sizes.
  assert (map (draw (Some s)) (seq 0 nranks) = repeat (draw (Some s) 0%nat) nranks) as ->.
  { generalize 0%nat at 1. induction nranks as [|k IH]; intros j; [reflexivity|]. cbn [seq map repeat]. f_equal; [apply Hd|].
    destruct k; [reflexivity|]. apply IH. lia. }
  destruct (random_catalog_total nranks (draw (Some s) 0%nat) Hr Hn) as (sizes & H1 & H2 & _). eauto.
Qed.

(* ---------- data bounds ---------- *)
Lemma omin_none_r a : omin a None = a. Proof. destruct a; reflexivity. Qed.
Lemma omin_assoc a b c : omin a (omin b c) = omin (omin a b) c.
Proof. destruct a, b, c; simpl; try reflexivity. f_equal; lia. Qed.
Lemma omin_comm a b : omin a b = omin b a.
Proof. destruct a, b; simpl; try reflexivity. f_equal; lia. Qed.
Lemma omax_none_r a : omax a None = a. Proof. destruct a; reflexivity. Qed.
Lemma omax_assoc a b c : omax a (omax b c) = omax (omax a b) c.
Proof. destruct a, b, c; simpl; try reflexivity. f_equal; lia. Qed.
Lemma omax_comm a b : omax a b = omax b a.
Proof. destruct a, b; simpl; try reflexivity. f_equal; lia. Qed.
Lemma lmin_app l l' : lmin (l ++ l') = omin (lmin l) (lmin l').
Proof.
  induction l as [|x l IH]; [reflexivity|].
  change (omin (Some x) (lmin (l ++ l')) = omin (omin (Some x) (lmin l)) (lmin l')).
  rewrite IH. apply omin_assoc.
Qed.
Lemma lmax_app l l' : lmax (l ++ l') = omax (lmax l) (lmax l').
Proof.
  induction l as [|x l IH]; [reflexivity|].
  change (omax (Some x) (lmax (l ++ l')) = omax (omax (Some x) (lmax l)) (lmax l')).
  rewrite IH. apply omax_assoc.
Qed.

Lemma lmin_spec l : smallest l (lmin l).
Proof.
  induction l as [|x l IH]; [reflexivity|].
  change (lmin (x :: l)) with (omin (Some x) (lmin l)). unfold smallest in *.
  destruct (lmin l) as [m|]; cbn [omin].
  - destruct IH as [Hin Hle]. split.
    + destruct (Z.min_spec x m) as [[_ ->]|[_ ->]]; [left; reflexivity|right; exact Hin].
    + intros y [->|Hy]; [lia|]. specialize (Hle y Hy). lia.
  - subst l. split; [left; reflexivity|]. intros y [->|[]]. lia.
Qed.
Lemma lmax_spec l : largest l (lmax l).
Proof.
  induction l as [|x l IH]; [reflexivity|].
  change (lmax (x :: l)) with (omax (Some x) (lmax l)). unfold largest in *.
  destruct (lmax l) as [m|]; cbn [omax].
  - destruct IH as [Hin Hle]. split.
    + destruct (Z.max_spec x m) as [[_ ->]|[_ ->]]; [right; exact Hin|left; reflexivity].
    + intros y [->|Hy]; [lia|]. specialize (Hle y Hy). lia.
  - subst l. split; [left; reflexivity|]. intros y [->|[]]. lia.
Qed.

Lemma py_slice_chunk {A} (l : list A) i c : 0 <= i -> 0 <= c ->
  py_slice l (Some i) (Some (i + c)) None = Ok (sub l (Z.min i (zlen l)) (Z.min (i + c) (zlen l))).
Proof.
  intros Hi Hc. unfold py_slice, slice_indices, clip_start. cbn [Z.eqb Z.ltb Z.compare rbind].
  pose proof (zlen_nonneg l).
  destruct (Z.ltb_spec i 0); [lia|]. destruct (Z.ltb_spec (i + c) 0); [lia|]. cbn [rbind].
  rewrite sub_select by lia. reflexivity.
Qed.

Definition kept (d : list (Z * bool)) : list Z := map fst (filter snd d).

Lemma kept_app d e : kept (d ++ e) = kept d ++ kept e.
Proof. unfold kept. rewrite filter_app, map_app. reflexivity. Qed.

Definition chunk_of (d : list (Z * bool)) (c : Z) (i : Z) : list (Z * bool) :=
  sub d (Z.min i (zlen d)) (Z.min (i + c) (zlen d)).

Lemma bounds_loop_sound c d : 0 <= c -> forall starts acc r,
  Forall (fun i => 0 <= i) starts ->
  bounds_loop starts c d acc = Ok r ->
  r = (omin (lmin (kept (concat (map (chunk_of d c) starts)))) (fst acc),
       omax (lmax (kept (concat (map (chunk_of d c) starts)))) (snd acc)).
Proof.
  intros Hc. induction starts as [|i is IH]; intros acc r Hnn H; cbn [bounds_loop] in H.
  - injection H as <-. destruct acc; reflexivity.
  - inversion Hnn as [|? ? Hi His]; subst.
    destruct (Z.eqb_spec (zlen d) 0) as [E|E].
    + apply IH in H; [|exact His]. rewrite H.
      assert (d = []) as -> by (destruct d; [reflexivity|unfold zlen in E; simpl in E; lia]).
      assert (forall l, concat (map (chunk_of [] c) l) = []) as Hn.
      { induction l as [|x l IHl]; [reflexivity|]. cbn [map concat]. rewrite IHl.
        unfold chunk_of, sub. rewrite skipn_nil, firstn_nil. reflexivity. }
      rewrite !Hn. reflexivity.
    + rewrite py_slice_chunk in H by lia. cbn [rbind] in H. fold (kept (sub d (Z.min i (zlen d)) (Z.min (i + c) (zlen d)))) in H.
      fold (chunk_of d c i) in H. cbn [map concat]. rewrite kept_app, lmin_app, lmax_app.
      destruct (kept (chunk_of d c i)) as [|k ks] eqn:Ek; [discriminate|].
      apply IH in H; [|exact His]. rewrite H. cbn [fst snd].
      f_equal; [rewrite omin_assoc; f_equal; apply omin_comm|rewrite omax_assoc; f_equal; apply omax_comm].
Qed.

Lemma bounds_loop_total c d : 0 <= c -> forall starts acc,
  Forall (fun i => 0 <= i) starts ->
  (zlen d = 0 \/ Forall (fun i => kept (chunk_of d c i) <> []) starts) ->
  exists r, bounds_loop starts c d acc = Ok r.
Proof.
  intros Hc. induction starts as [|i is IH]; intros acc Hnn H; cbn [bounds_loop]; [eauto|].
  inversion Hnn as [|? ? Hi His]; subst.
  destruct (Z.eqb_spec (zlen d) 0) as [E|E]; [apply IH; auto|].
  destruct H as [H|H]; [contradiction|]. inversion H as [|? ? Hk Hks]; subst.
  rewrite py_slice_chunk by lia. cbn [rbind]. fold (kept (sub d (Z.min i (zlen d)) (Z.min (i + c) (zlen d)))).
  fold (chunk_of d c i). destruct (kept (chunk_of d c i)); [congruence|]. apply IH; auto.
Qed.

Lemma chunks_cover c d nmax : 1 <= c -> zlen d <= nmax ->
  concat (map (chunk_of d c) (py_range 0 nmax c)) = d.
Proof.
  intros Hc Hn. unfold py_range. rewrite map_map.
  set (k := Z.to_nat (range_len 0 nmax c)).
  assert (Hk : nmax <= Z.of_nat k * c).
  { unfold k. pose proof (range_len_nonneg 0 nmax c). rewrite Z2Nat.id by lia.
    destruct (Z.ltb_spec (range_len 0 nmax c * c) nmax) as [Hlt|]; [|lia].
    assert (range_len 0 nmax c < range_len 0 nmax c); [|lia].
    apply range_len_pos_lt; lia. }
  pose proof (zlen_nonneg d) as Hd.
  pose proof (concat_telescope d (fun r => Z.min (Z.of_nat r * c) (zlen d)) k 0) as HT.
  rewrite map_map in HT. cbn [fst snd] in HT.
  rewrite (map_ext _ (fun r => sub d (Z.min (Z.of_nat r * c) (zlen d)) (Z.min (Z.of_nat (S r) * c) (zlen d)))).
  - rewrite HT; [|intros; nia|lia]. cbn [Nat.add].
    replace (Z.min (Z.of_nat 0 * c) (zlen d)) with 0 by lia.
    replace (Z.min (Z.of_nat k * c) (zlen d)) with (zlen d) by lia. apply sub_full.
  - intros r. unfold chunk_of. f_equal; f_equal; lia.
Qed.

Lemma rall_inv {A} (l : list (res A)) r : rall l = Ok r -> l = map Ok r.
Proof.
  revert r; induction l as [|x l IH]; intros r H; cbn [rall] in H; [injection H as <-; reflexivity|].
  destruct x as [a|e]; [|discriminate]. cbn [rbind] in H. destruct (rall l) as [t|e] eqn:E; [|discriminate].
  injection H as <-. cbn [map]. rewrite (IH t eq_refl). reflexivity.
Qed.

Lemma fold_max_ge l x : In x l -> x <= fold_right Z.max 0 l.
Proof. induction l as [|y l IH]; intros H; [destruct H|]. cbn [fold_right]. destruct H as [->|H]; [lia|]. specialize (IH H). lia. Qed.
Lemma py_range_nonneg n c : 1 <= c -> Forall (fun i => 0 <= i) (py_range 0 n c).
Proof.
  intros Hc. apply Forall_forall. intros x Hx. apply in_py_range_pos in Hx; lia.
Qed.

Lemma data_bounds_sound c ranks lo hi : 1 <= c -> data_bounds c ranks = Ok (lo, hi) ->
  smallest (map fst (filter snd (concat ranks))) lo /\ largest (map fst (filter snd (concat ranks))) hi.
Proof.
  intros Hc H. unfold data_bounds in H. set (nmax := fold_right Z.max 0 (map zlen ranks)) in *.
  destruct (rall _) as [locals|e] eqn:E; [|discriminate]. cbn [rbind] in H. injection H as <- <-.
  apply rall_inv in E.
  assert (HL : forall rs ls, (forall d, In d rs -> zlen d <= nmax) ->
    map (fun d => bounds_loop (py_range 0 nmax c) c d (None, None)) rs = map Ok ls ->
    fold_right omin None (map fst ls) = lmin (kept (concat rs)) /\
    fold_right omax None (map snd ls) = lmax (kept (concat rs))).
  { induction rs as [|d rs IH]; intros [|r ls] Hle Heq; try discriminate; [split; reflexivity|].
    cbn [map] in Heq. injection Heq as H1 H2.
    apply bounds_loop_sound in H1; [|lia|apply py_range_nonneg; exact Hc].
    rewrite (chunks_cover c d nmax Hc) in H1 by (apply Hle; left; reflexivity).
    destruct (IH ls (fun d' Hd' => Hle d' (or_intror Hd')) H2) as [IH1 IH2].
    subst r. cbn [map fold_right fst snd concat]. rewrite kept_app, lmin_app, lmax_app, IH1, IH2.
    rewrite omin_none_r, omax_none_r. split; reflexivity. }
  destruct (HL ranks locals) as [-> ->].
  - intros d Hd. apply fold_max_ge. apply in_map. exact Hd.
  - exact E.
  - split; [apply lmin_spec|apply lmax_spec].
Qed.

(* no failure when every rank's rows fit in one chunk and every rank that has
   rows has selected ones *)
Lemma data_bounds_total c ranks : 1 <= c -> (forall d, In d ranks -> zlen d <= c) ->
  (forall d, In d ranks -> d <> [] -> exists x, In (x, true) d) ->
  exists b, data_bounds c ranks = Ok b.
Proof.
  intros Hc Hle Hsel. unfold data_bounds. set (nmax := fold_right Z.max 0 (map zlen ranks)).
  assert (Hnmax : nmax <= c).
  { unfold nmax. clear Hsel nmax. induction ranks as [|d rs IH]; cbn [map fold_right]; [lia|].
    pose proof (Hle d (or_introl eq_refl)). pose proof (IH (fun e He => Hle e (or_intror He))). lia. }
  assert (Hr : Forall (fun i => i = 0) (py_range 0 nmax c)).
  { apply Forall_forall. intros x Hx. apply in_py_range in Hx. destruct Hx as (i & Hi & ->).
    assert (0 + i * c < nmax) by (apply (range_len_pos_lt 0 nmax c i); lia). destruct (Z.eq_dec i 0); [subst; lia|]. assert (1 * c <= i * c) by (apply Z.mul_le_mono_nonneg_r; lia). lia. }
  assert (HT : forall rs, (forall d, In d rs -> In d ranks) -> exists ls,
     rall (map (fun d => bounds_loop (py_range 0 nmax c) c d (None, None)) rs) = Ok ls).
  { induction rs as [|d rs IH]; intros Hin; [exists []; reflexivity|].
    destruct (bounds_loop_total c d ltac:(lia) (py_range 0 nmax c) (None, None)) as [r Hbr].
    - apply py_range_nonneg; exact Hc.
    - assert (d = [] \/ d <> []) as [->|Hd] by (destruct d; [left; reflexivity|right; discriminate]);
        [left; reflexivity|right].
      destruct (Hsel d) as [y Hy]; [apply Hin; left; reflexivity|exact Hd|].
      eapply Forall_impl; [|exact Hr]. cbv beta. intros i ->. unfold chunk_of.
      pose proof (Hle d (Hin d (or_introl eq_refl))). pose proof (zlen_nonneg d).
      replace (Z.min 0 (zlen d)) with 0 by lia. replace (Z.min (0 + c) (zlen d)) with (zlen d) by lia.
      rewrite sub_full. intros Hk. apply (in_nil (a := y)). rewrite <- Hk. unfold kept.
      apply in_map_iff. exists (y, true). split; [reflexivity|]. apply filter_In. split; [exact Hy|reflexivity].
    - destruct (IH (fun e He => Hin e (or_intror He))) as [ls Hls].
      cbn [map rall]. rewrite Hbr. cbn [rbind]. rewrite Hls. cbn [rbind]. eauto. }
  destruct (HT ranks (fun d H => H)) as [ls ->]. cbn [rbind]. eauto.
Qed.

Lemma scatter_even_balanced {A} nranks (data : list A) : (1 <= nranks)%nat ->
  exists parts, scatter_array 0 nranks data None = Ok parts /\
    concat parts = data /\ length parts = nranks /\ balanced (map zlen parts).
Proof.
  intros H. destruct (scatter_even_ok nranks data H) as (p & H1 & H2 & H3 & H4).
  exists p. repeat split; auto. rewrite H4. rewrite <- (Nat2Z.id nranks) at 2. apply even_balanced.
Qed.

Lemma scatter_gather {A} nranks (data : list A) counts root d parts :
  (1 <= nranks)%nat -> (forall cs, counts = Some cs -> Forall (fun c => 0 <= c) cs) ->
  scatter_array 0 nranks data counts = Ok parts ->
  gather_array root (map (fun p => (d, p)) parts) = Ok (map Some data).
Proof.
  intros Hn Hc H. rewrite gather_ok. do 2 f_equal.
  destruct counts as [cs|].
  - assert (length cs = nranks /\ zsum cs = zlen data) as [E1 E2].
    { unfold scatter_array in H. destruct (Nat.eqb_spec (length cs) nranks); [|discriminate].
      cbn [negb Nat.eqb] in H. destruct (Z.eqb_spec (zsum cs) (zlen data)); [auto|discriminate]. }
    destruct (scatter_counts_ok nranks data cs E1 (Hc cs eq_refl) E2) as (p & H1 & H2 & _). congruence.
  - destruct (scatter_even_ok nranks data Hn) as (p & H1 & H2 & _). congruence.
Qed.

Lemma query_rows_fresh {A} (rows : list A) nranks a b : (1 <= nranks)%nat ->
  0 <= a <= b -> b <= zlen rows ->
  concat (catalog_rows rows (query_range (load_file (zlen rows) nranks) a b))
  = select rows (py_range a b 1).
Proof.
  intros Hn Hab Hb. rewrite query_rows.
  - cbn [fc_start load_file]. rewrite !Z.add_0_l. apply sub_select; assumption.
  - cbn [fc_bounds load_file]. rewrite map_length, seq_length. exact Hn.
  - cbn [fc_start load_file]. lia.
  - lia.
Qed.
