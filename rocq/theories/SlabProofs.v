From Coq Require Import Reals List Bool Lra Lia.
From Verif Require Import Base BaseProofs ThreeMain SlabModel SlabSpec.
Import ListNotations.
Local Open Scope nat_scope.

(* ---- broadcasting ---- *)
Lemma bdim_1l b : bdim 1 b = Ok b.
Proof. unfold bdim. destruct (Nat.eqb_spec 1 b) as [<-|]; reflexivity. Qed.
Lemma bdim_1r a : bdim a 1 = Ok a.
Proof. unfold bdim. destruct (Nat.eqb_spec a 1) as [->|]; reflexivity. Qed.
Lemma bdim_same a : bdim a a = Ok a.
Proof. unfold bdim. rewrite Nat.eqb_refl. reflexivity. Qed.
Lemma bdim_one a b d : bdim a b = Ok d -> d = 1 -> a = 1 /\ b = 1.
Proof. unfold bdim. destruct (Nat.eqb_spec a b); [intros H ->; injection H as ->; auto|]. destruct (Nat.eqb_spec a 1); [intros H ->; injection H as ->; lia|]. destruct (Nat.eqb_spec b 1); [intros H ->; injection H as ->; lia|discriminate]. Qed.
Lemma bshape_map (f g h : nat -> nat) L : (forall k, In k L -> bdim (f k) (g k) = Ok (h k)) -> bshape (map f L) (map g L) = Ok (map h L).
Proof.
  induction L as [|k L IH]; intros H; [reflexivity|]. cbn [map bshape]. rewrite (H k (or_introl eq_refl)). cbn [rbind]. rewrite IH by (intros; apply H; right; assumption). reflexivity.
Qed.
Lemma clip_clip s : forall t u idx, bshape s t = Ok u -> clip s (clip u idx) = clip s idx /\ clip t (clip u idx) = clip t idx.
Proof.
  induction s as [|a s IH]; intros [|b t] u idx H; cbn [bshape] in H; try discriminate.
  - injection H as <-. destruct idx; auto.
  - destruct (bdim a b) as [d|] eqn:ED; [|discriminate]. cbn [rbind] in H. destruct (bshape s t) as [r|] eqn:ER; [|discriminate]. cbn [rbind] in H. injection H as <-.
    destruct idx as [|i idx]; [auto|]. cbn [clip]. destruct (IH t r idx ER) as [-> ->].
    destruct (Nat.eqb_spec d 1) as [Ed|]; [destruct (bdim_one a b d ED Ed) as [-> ->]; auto|auto].
Qed.
Definition bval {V} (a : nd V) (idx : list nat) : V := val a (clip (shape a) idx).
Lemma bval_lift2 {V W} (op : V -> V -> W) a b c idx : lift2 op a b = Ok c -> bval c idx = op (bval a idx) (bval b idx).
Proof.
  unfold lift2. destruct (bshape (shape a) (shape b)) as [u|] eqn:E; [|discriminate]. cbn [rbind]. intros H. injection H as <-. unfold bval. cbn [shape val].
  destruct (clip_clip _ _ u idx E) as [-> ->]. reflexivity.
Qed.
Lemma bval_lift1 {V W} (op : V -> W) a idx : bval (lift1 op a) idx = op (bval a idx).
Proof. reflexivity. Qed.
Lemma clip_inside s idx : inside idx s -> clip s idx = idx.
Proof. intros H. induction H as [|i n idx s Hi H IH]; [reflexivity|]. cbn [clip]. rewrite IH. destruct (Nat.eqb_spec n 1); f_equal; lia. Qed.
Lemma bval_inside {V} (a : nd V) idx : inside idx (shape a) -> bval a idx = val a idx.
Proof. intros H. unfold bval. rewrite clip_inside by exact H. reflexivity. Qed.
Lemma lift2_shape {V W} (op : V -> V -> W) a b s : bshape (shape a) (shape b) = Ok s -> exists c, lift2 op a b = Ok c /\ shape c = s.
Proof. intros H. unfold lift2. rewrite H. cbn [rbind]. eexists. split; reflexivity. Qed.

(* ---- removing and inserting ---- *)
Lemma remove_map {A B} (f : A -> B) i l : remove_nth i (map f l) = map f (remove_nth i l).
Proof. unfold remove_nth. rewrite map_app, !firstn_map. f_equal. revert i. induction l as [|a l IH]; intros [|i]; cbn [map skipn]; auto. apply IH. Qed.
Lemma skipn_seq n : forall a k, skipn k (seq a n) = seq (a + k) (n - k).
Proof. induction n as [|n IH]; intros a [|k]; cbn [seq skipn Nat.sub]; rewrite ?Nat.add_0_r; auto. rewrite IH. f_equal. lia. Qed.
Lemma firstn_seq n : forall a k, k <= n -> firstn k (seq a n) = seq a k.
Proof. induction n as [|n IH]; intros a [|k] H; cbn [seq firstn]; auto; try lia. f_equal. apply IH. lia. Qed.
Lemma in_remove_seq k a n : a < n -> In k (remove_nth a (seq 0 n)) <-> (k < n /\ k <> a).
Proof.
  intros H. unfold remove_nth. rewrite in_app_iff, firstn_seq, skipn_seq by lia. rewrite !in_seq. lia.
Qed.
Lemma insert_remove {A} a (x : A) l g : nth_error l a = Some x -> g = l -> insert_nth a x (remove_nth a l) = g.
Proof.
  intros H ->. unfold insert_nth, remove_nth. assert (L : a < length l) by (apply nth_error_Some; congruence).
  rewrite firstn_app, skipn_app, firstn_length_le by lia. rewrite Nat.sub_diag, firstn_firstn, Nat.min_id. cbn [firstn]. rewrite app_nil_r.
  rewrite skipn_all2 by (rewrite firstn_length_le; lia). cbn [skipn app].
  clear L. revert l H. induction a as [|a IH]; intros [|y l] H; try discriminate; cbn [nth_error firstn skipn app] in *; [injection H as ->; reflexivity|]. f_equal. apply IH, H.
Qed.
Lemma remove_insert {A} a (x : A) l : a <= length l -> remove_nth a (insert_nth a x l) = l.
Proof.
  intros H. unfold insert_nth, remove_nth. rewrite firstn_app, firstn_length_le by lia. rewrite Nat.sub_diag, firstn_firstn, Nat.min_id. cbn [firstn]. rewrite app_nil_r.
  rewrite skipn_app, firstn_length_le by lia. rewrite skipn_all2 by (rewrite firstn_length_le; lia). replace (S a - a) with 1 by lia. cbn [skipn app]. apply firstn_skipn.
Qed.
Lemma nth_insert_same {A} a (x : A) l : a <= length l -> nth_error (insert_nth a x l) a = Some x.
Proof. intros H. unfold insert_nth. rewrite nth_error_app2; rewrite firstn_length_le by lia; [rewrite Nat.sub_diag; reflexivity|lia]. Qed.
Lemma nth_insert {A} a (x : A) l k d : a <= length l -> nth k (insert_nth a x l) d = if k <? a then nth k l d else if k =? a then x else nth (k - 1) l d.
Proof.
  intros H. unfold insert_nth. destruct (Nat.ltb_spec k a).
  - rewrite app_nth1 by (rewrite firstn_length_le; lia). rewrite <- (firstn_skipn a l) at 2. rewrite app_nth1 by (rewrite firstn_length_le; lia). reflexivity.
  - rewrite app_nth2 by (rewrite firstn_length_le; lia). rewrite firstn_length_le by lia. destruct (Nat.eqb_spec k a) as [->|N]; [rewrite Nat.sub_diag; reflexivity|].
    replace (k - a) with (S (k - 1 - a)) by lia. cbn [nth]. rewrite <- (firstn_skipn a l) at 2. rewrite app_nth2 by (rewrite firstn_length_le; lia). rewrite firstn_length_le by lia. reflexivity.
Qed.
Lemma nth_remove {A} a (l : list A) k d : a < length l -> nth k (remove_nth a l) d = if k <? a then nth k l d else nth (k + 1) l d.
Proof.
  intros H. assert (E : exists x, nth_error l a = Some x) by (destruct (nth_error l a) eqn:E; [eauto|apply nth_error_None in E; lia]). destruct E as [x E].
  assert (R : length (remove_nth a l) = length l - 1) by (unfold remove_nth; rewrite app_length, firstn_length_le, skipn_length; lia).
  assert (G : forall m, nth m l d = nth m (insert_nth a x (remove_nth a l)) d) by (intros m; f_equal; symmetry; apply insert_remove; auto).
  rewrite !G, !nth_insert by lia.
  destruct (Nat.ltb_spec k a); [reflexivity|]. destruct (Nat.ltb_spec (k + 1) a); [lia|]. destruct (Nat.eqb_spec (k + 1) a); [lia|]. f_equal. lia.
Qed.
Lemma remove_length {A} a (l : list A) : a < length l -> length (remove_nth a l) = length l - 1.
Proof. intros H. unfold remove_nth. rewrite app_length, firstn_length_le, skipn_length; lia. Qed.
Lemma insert_length {A} a (x : A) l : a <= length l -> length (insert_nth a x l) = S (length l).
Proof. intros H. unfold insert_nth. rewrite app_length. cbn [length]. rewrite firstn_length_le, skipn_length; lia. Qed.
Lemma nth_clip s : forall idx k, k < length s -> k < length idx -> nth k (clip s idx) 0 = if nth k s 0 =? 1 then 0 else nth k idx 0.
Proof. induction s as [|n s IH]; intros [|i idx] k H1 H2; cbn [length] in *; try lia. cbn [clip]. destruct k as [|k]; cbn [nth]; [reflexivity|]. apply IH; lia. Qed.
Lemma clip_length s : forall idx, length idx = length s -> length (clip s idx) = length s.
Proof. induction s as [|n s IH]; intros [|i idx] H; cbn [length clip] in *; try lia. f_equal. apply IH. lia. Qed.
Lemma inside_nth j : forall s, inside j s <-> (length j = length s /\ forall k, k < length s -> nth k j 0 < nth k s 0).
Proof.
  induction j as [|i j IH]; intros [|n s]; split.
  - intros _. split; [reflexivity|]. cbn [length]. lia.
  - intros _. constructor.
  - intros H. inversion H.
  - intros [H _]. discriminate.
  - intros H. inversion H.
  - intros [H _]. discriminate.
  - intros H. inversion H as [|? ? ? ? H1 H2]; subst. apply IH in H2 as [H2 H3]. cbn [length]. split; [lia|]. intros [|k] Hk; cbn [nth]; [exact H1|]. apply H3. lia.
  - intros [H1 H2]. cbn [length] in *. constructor; [apply (H2 0); lia|]. apply IH. split; [lia|]. intros k Hk. apply (H2 (S k)). lia.
Qed.

Lemma nth_map {A B} (f : A -> B) l k d d' : k < length l -> nth k (map f l) d = f (nth k l d').
Proof. intros H. rewrite (nth_indep _ d (f d')) by (rewrite map_length; exact H). apply map_nth. Qed.

Lemma fold_left_plus : forall l x, fold_left Rplus l x = (x + fold_right Rplus 0 l)%R.
Proof. induction l as [|y l IHl]; intros x; cbn [fold_left fold_right]; [lra|rewrite IHl; lra]. Qed.

Lemma seq_cons m : 0 < m -> seq 0 m = 0 :: seq 1 (m - 1).
Proof. destruct m; [lia|]. intros _. cbn [seq Nat.sub]. rewrite Nat.sub_0_r. reflexivity. Qed.

(* ---- a slab of a mesh ---- *)
Section Mesh.
Variable xs : list (list R).
Let n := length xs.
Let dim (k : nat) := length (nth k xs []).
Definition coord (i : nat) : nd R := {| shape := axis_shape n i (dim i); val := fun idx => nth (nth i idx 0) (nth i xs []) 0%R |}.
Lemma mesh_nth i : i < n -> nth_error (mesh_coords xs) i = Some (coord i).
Proof.
  intros H. unfold mesh_coords. assert (nth_error (combine (seq 0 (length xs)) xs) i = Some (i, nth i xs [])) as E.
  { assert (G : forall (ys : list (list R)) b j, j < length ys -> nth_error (combine (seq b (length ys)) ys) j = Some (b + j, nth j ys [])).
    { induction ys as [|y ys IH]; intros b [|j] Hj; cbn [length] in Hj; try lia; cbn [length seq combine nth_error nth]; [f_equal; f_equal; lia|]. rewrite IH by lia. f_equal. f_equal. lia. }
    apply (G xs 0 i). exact H. }
  rewrite nth_error_map, E. reflexivity.
Qed.
Lemma mesh_length : length (mesh_coords xs) = n.
Proof. unfold mesh_coords. rewrite map_length, combine_length, seq_length. apply Nat.min_id. Qed.
End Mesh.
Section Slab.
Variable xs : list (list R).
Let n := length xs.
Variable a : nat.
Hypothesis Ha : a < n.
Variable islab : nat.
Hypothesis Hi : islab < length (nth a xs []).
Variable sym : option Z.
Let s := {| s_index := islab; s_coords := mesh_coords xs; s_axis := a; s_sym := sym |}.
Let L := remove_nth a (seq 0 n).
Let dim (k : nat) := length (nth k xs []).
Definition slab_coord (i : nat) : nd R :=
  {| shape := map (fun j => if j =? i then dim i else 1) L; val := fun idx => nth (nth i (insert_nth a (if i =? a then islab else 0) idx) 0) (nth i xs []) 0%R |}.
Lemma take_coord i v : i < n -> v < (if a =? i then dim i else 1) -> take (coord xs i) v a = Ok {| shape := map (fun j => if j =? i then dim i else 1) L; val := fun idx => val (coord xs i) (insert_nth a v idx) |}.
Proof.
  intros H Hv. unfold take. cbn [shape coord]. unfold axis_shape. fold n. repeat match goal with |- context [length (nth ?i xs [])] => change (length (nth i xs [])) with (dim i) end. rewrite nth_error_map. 
  assert (nth_error (seq 0 n) a = Some a) as -> by (rewrite (nth_error_nth' _ 0) by (rewrite seq_length; exact Ha); rewrite seq_nth by exact Ha; reflexivity). cbn [option_map].
  apply Nat.ltb_lt in Hv. rewrite Hv. rewrite remove_map. reflexivity.
Qed.
Lemma coords_ok i : i < n -> coords s (Z.of_nat i) = Ok (slab_coord i).
Proof.
  intros H. unfold coords, ndim. cbn [s s_coords s_axis s_index]. rewrite (mesh_length xs). fold n. destruct (Z.ltb_spec (Z.of_nat i) 0); [lia|]. destruct (Z.ltb_spec (Z.of_nat i) 0); [lia|]. destruct (Z.leb_spec (Z.of_nat n) (Z.of_nat i)); [lia|]. cbn [orb].
  rewrite Nat2Z.id, (mesh_nth xs i H). unfold slab_coord. destruct (Nat.eqb_spec i a) as [->|N]; cbn [negb]; rewrite take_coord; try exact H; try reflexivity.
  - rewrite Nat.eqb_refl. exact Hi.
  - destruct (Nat.eqb_spec a i); lia.
Qed.
Lemma all_coords_ok : all_coords s = Ok (map slab_coord (seq 0 n)).
Proof.
  unfold all_coords, ndim. cbn [s s_coords]. rewrite (mesh_length xs). fold n. assert (G : forall l, (forall i, In i l -> i < n) -> rall (map (fun i => coords s (Z.of_nat i)) l) = Ok (map slab_coord l)).
  { induction l as [|i l IH]; intros H; [reflexivity|]. cbn [map rall]. rewrite coords_ok by (apply H; left; reflexivity). cbn [rbind]. rewrite IH by (intros; apply H; right; assumption). reflexivity. }
  apply G. intros i Hin. apply in_seq in Hin. lia.
Qed.
Let D := map dim L.
Lemma D_length : length D = n - 1.
Proof. unfold D, L. rewrite map_length, remove_length; rewrite seq_length; lia. Qed.
Lemma L_nth k : k < n - 1 -> nth k L 0 = if k <? a then k else k + 1.
Proof. intros H. unfold L. rewrite nth_remove by (rewrite seq_length; exact Ha). rewrite !seq_nth by lia. destruct (Nat.ltb_spec k a); lia. Qed.
Lemma L_length : length L = n - 1.
Proof. unfold L. rewrite remove_length; rewrite seq_length; lia. Qed.
Lemma dims_D : remove_nth a (mesh_dims xs) = D.
Proof.
  unfold D, L, mesh_dims. rewrite <- remove_map. f_equal. apply (nth_ext _ _ 0 0); [rewrite !map_length, seq_length; reflexivity|].
  intros k Hk. rewrite map_length in Hk. rewrite (nth_indep _ 0 (length (@nil R))) by (rewrite map_length; exact Hk). rewrite map_nth.
  rewrite (nth_indep _ 0 (dim 0)) by (rewrite map_length, seq_length; exact Hk). rewrite map_nth, seq_nth by exact Hk. reflexivity.
Qed.
Lemma slab_bval i j : i < n -> inside j D -> bval (slab_coord i) j = nth (nth i (insert_nth a islab j) 0) (nth i xs []) 0%R.
Proof.
  intros H HJ. apply inside_nth in HJ as [LJ HJ]. rewrite D_length in *. unfold bval. cbn [shape val slab_coord].
  set (c := clip _ j). assert (LC : length c = n - 1) by (unfold c; rewrite clip_length; rewrite map_length, L_length; auto).
  f_equal. rewrite !nth_insert by lia. destruct (Nat.eqb_spec i a) as [->|N]; [rewrite Nat.ltb_irrefl; reflexivity|].
  assert (G : forall k, k < n - 1 -> nth k L 0 = i -> nth k c 0 = nth k j 0).
  { intros k Hk E. unfold c. rewrite nth_clip by (rewrite ?map_length, ?L_length; lia). rewrite (nth_map _ _ _ _ 0) by (rewrite L_length; exact Hk). rewrite E, Nat.eqb_refl. destruct (Nat.eqb_spec (dim i) 1) as [E1|]; [|reflexivity]. specialize (HJ k Hk). unfold D in HJ. rewrite (nth_map _ _ _ _ 0), E in HJ by (rewrite L_length; exact Hk). lia. }
  destruct (Nat.ltb_spec i a).
  - apply G; [lia|]. rewrite L_nth by lia. destruct (Nat.ltb_spec i a); lia.
  - apply G; [lia|]. rewrite L_nth by lia. destruct (Nat.ltb_spec (i - 1) a); lia.
Qed.

(* sums of arrays with the shapes of the coordinates *)
Let part (m k : nat) := if k <? m then dim k else 1.
Lemma part_D : map (part n) L = D.
Proof. unfold D. apply map_ext_in. intros k Hk. apply in_remove_seq in Hk as [Hk _]; [|exact Ha]. unfold part. destruct (Nat.ltb_spec k n); [reflexivity|lia]. Qed.
Lemma sum_from_ok (f : nat -> nd R) : (forall i, i < n -> shape (f i) = shape (slab_coord i)) -> forall c m acc, m + c = n -> shape acc = map (part m) L ->
  exists t, sum_from acc (map f (seq m c)) = Ok t /\ shape t = D /\ forall idx, bval t idx = fold_left Rplus (map (fun i => bval (f i) idx) (seq m c)) (bval acc idx).
Proof.
  intros SF. induction c as [|c IH]; intros m acc HM HS; cbn [seq map sum_from fold_left].
  - exists acc. split; [reflexivity|]. split; [|reflexivity]. rewrite HS. replace m with n by lia. apply part_D.
  - destruct (lift2_shape Rplus acc (f m) (map (part (S m)) L)) as (u & E & SU).
    { rewrite HS, (SF m) by lia. cbn [shape slab_coord]. apply bshape_map. intros k _. unfold part. destruct (Nat.eqb_spec k m) as [->|N].
      - destruct (Nat.ltb_spec m m); [lia|]. destruct (Nat.ltb_spec m (S m)); [|lia]. apply bdim_1l.
      - destruct (Nat.ltb_spec k m); destruct (Nat.ltb_spec k (S m)); try lia; [apply bdim_1r|apply bdim_1r]. }
    rewrite E. cbn [rbind]. destruct (IH (S m) u ltac:(lia) SU) as (t & ET & ST & VT). exists t. split; [exact ET|]. split; [exact ST|].
    intros idx. rewrite VT. rewrite (bval_lift2 Rplus acc (f m) u idx E). reflexivity.
Qed.
Lemma py_sum_ok (f : nat -> nd R) : (forall i, i < n -> shape (f i) = shape (slab_coord i)) ->
  exists t, py_sum (map f (seq 0 n)) = Ok t /\ shape t = D /\ forall idx, bval t idx = fold_right Rplus 0%R (map (fun i => bval (f i) idx) (seq 0 n)).
Proof.
  intros SF. assert (E : seq 0 n = 0 :: seq 1 (n - 1)) by (apply seq_cons; lia). rewrite E. cbn [map py_sum].
  destruct (sum_from_ok f SF (n - 1) 1 (lift1 (Rplus 0) (f 0)) ltac:(lia)) as (t & ET & ST & VT).
  { cbn [shape lift1]. rewrite SF by lia. cbn [shape slab_coord]. apply map_ext. intros k. unfold part. destruct (Nat.eqb_spec k 0) as [->|N]; [reflexivity|]. destruct (Nat.ltb_spec k 1); [lia|reflexivity]. }
  exists t. split; [exact ET|]. split; [exact ST|]. intros idx. rewrite VT, bval_lift1. cbn [fold_right].
  rewrite fold_left_plus. lra.
Qed.
Definition pos (j : list nat) : list R := position xs (insert_nth a islab j).
Lemma pos_eq j : inside j D -> pos j = map (fun i => bval (slab_coord i) j) (seq 0 n).
Proof.
  intros HJ. assert (LJ : length j = n - 1) by (apply inside_nth in HJ as [LJ _]; rewrite D_length in LJ; exact LJ). unfold pos, position.
  assert (LG : length (insert_nth a islab j) = n) by (rewrite insert_length; lia).
  apply (nth_ext _ _ 0%R 0%R); [rewrite !map_length, combine_length, seq_length; fold n; lia|].
  intros k Hk. rewrite map_length, combine_length in Hk. fold n in Hk.
  rewrite (nth_map _ _ _ _ (0, [])) by (rewrite combine_length; fold n; lia). rewrite combine_nth by (fold n; lia). cbn [fst snd].
  rewrite (nth_map _ (seq 0 n) _ _ 0) by (rewrite seq_length; lia). rewrite seq_nth by lia. cbn [Nat.add]. rewrite slab_bval by (auto; lia). reflexivity.
Qed.
Lemma norm2_ok : exists t, norm2 s = Ok t /\ shape t = D /\ forall j, inside j D -> val t j = rdot (pos j) (pos j) /\ bval t j = rdot (pos j) (pos j).
Proof.
  unfold norm2. rewrite all_coords_ok. cbn [rbind]. rewrite map_map. destruct (py_sum_ok (fun i => lift1 (fun x => (x ^ 2)%R) (slab_coord i)) ltac:(reflexivity)) as (t & ET & ST & VT).
  exists t. split; [exact ET|]. split; [exact ST|]. intros j HJ. assert (E : bval t j = rdot (pos j) (pos j)).
  { rewrite VT, (pos_eq j HJ). unfold rdot. generalize (seq 0 n) as l. induction l as [|i l IH]; [reflexivity|]. cbn [map fold_right combine fst snd]. rewrite IH, bval_lift1. ring. }
  split; [|exact E]. rewrite <- E. symmetry. apply bval_inside. rewrite ST. exact HJ.
Qed.
Lemma mu_ok los : length los = n -> exists t, mu s los = Ok t /\ shape t = D /\
  forall j, inside j D -> val t j = if reqb (sqrt (rdot (pos j) (pos j))) 0 then 0%R else (rdot (pos j) los / sqrt (rdot (pos j) (pos j)))%R.
Proof.
  intros HL. unfold mu. destruct norm2_ok as (n2 & E2 & S2 & V2). rewrite E2. cbn [rbind]. rewrite all_coords_ok. cbn [rbind].
  assert (T : rall (map (fun ic => match nth_error los (fst ic) with Some l => Ok (lift1 (fun x => (x * l)%R) (snd ic)) | None => Err IndexError end) (combine (seq 0 (length (map slab_coord (seq 0 n)))) (map slab_coord (seq 0 n)))) =
    Ok (map (fun i => lift1 (fun x => (x * nth i los 0)%R) (slab_coord i)) (seq 0 n))).
  { rewrite map_length, seq_length. assert (G : forall c m, m + c = n -> rall (map (fun ic => match nth_error los (fst ic) with Some l => Ok (lift1 (fun x => (x * l)%R) (snd ic)) | None => Err IndexError end) (combine (seq m c) (map slab_coord (seq m c)))) = Ok (map (fun i => lift1 (fun x => (x * nth i los 0)%R) (slab_coord i)) (seq m c))).
    { induction c as [|c IH]; intros m HM; [reflexivity|]. cbn [seq map combine rall fst snd]. rewrite (nth_error_nth' los 0%R) by lia. cbn [rbind]. rewrite IH by lia. reflexivity. }
    apply G. reflexivity. }
  rewrite T. cbn [rbind]. destruct (py_sum_ok (fun i => lift1 (fun x => (x * nth i los 0)%R) (slab_coord i)) ltac:(reflexivity)) as (dot & ED & SD & VD). rewrite ED. cbn [rbind].
  assert (SS : bshape D D = Ok D) by (unfold D; apply bshape_map; intros; apply bdim_same).
  destruct (lift2_shape Rdiv dot (lift1 sqrt n2) D) as (r & ER & SR); [cbn [shape lift1]; rewrite SD, S2; exact SS|]. rewrite ER. cbn [rbind].
  destruct (lift2_shape (fun r n => if reqb n 0 then 0%R else r) r (lift1 sqrt n2) D) as (t & ET & ST); [cbn [shape lift1]; rewrite SR, S2; exact SS|]. exists t. split; [exact ET|]. split; [exact ST|].
  intros j HJ. rewrite <- bval_inside by (rewrite ST; exact HJ). rewrite (bval_lift2 _ _ _ _ j ET), (bval_lift2 _ _ _ _ j ER), !bval_lift1, (proj2 (V2 j HJ)), VD.
  assert (E : fold_right Rplus 0%R (map (fun i => bval (lift1 (fun x => (x * nth i los 0)%R) (slab_coord i)) j) (seq 0 n)) = rdot (pos j) los); [|rewrite E; reflexivity].
  rewrite (pos_eq j HJ). unfold rdot. assert (EL : los = map (fun i => nth i los 0%R) (seq 0 n)).
  { apply (nth_ext _ _ 0%R 0%R); [rewrite map_length, seq_length; exact HL|]. intros k Hk. rewrite (nth_map _ (seq 0 n) _ _ 0) by (rewrite seq_length; lia). rewrite seq_nth by lia. reflexivity. }
  match goal with |- _ = fold_right _ _ (combine ?x los) => replace (combine x los) with (combine x (map (fun i => nth i los 0%R) (seq 0 n))) by (rewrite <- EL; reflexivity) end. clear EL. generalize (seq 0 n) as l. induction l as [|i l IH]; [reflexivity|]. cbn [map fold_right combine fst snd]. rewrite IH, bval_lift1. reflexivity.
Qed.
Lemma meshshape_ok : meshshape s = mesh_dims xs.
Proof.
  unfold meshshape, ndim. cbn [s s_coords]. rewrite (mesh_length xs). fold n. unfold mesh_dims. apply (nth_ext _ _ 0 0); [rewrite !map_length, seq_length; reflexivity|].
  intros k Hk. rewrite map_length, seq_length in Hk. rewrite (nth_map _ _ _ _ 0) by (rewrite seq_length; exact Hk).
  rewrite seq_nth by exact Hk. cbn [Nat.add]. rewrite (mesh_nth xs k Hk). cbn [shape coord]. unfold axis_shape. fold n. repeat match goal with |- context [length (nth ?i xs [])] => change (length (nth i xs [])) with (dim i) end.
  rewrite (nth_map _ _ _ _ 0) by (rewrite seq_length; exact Hk). rewrite seq_nth by exact Hk. cbn [Nat.add]. rewrite Nat.eqb_refl.
  rewrite (nth_map _ _ _ _ []) by exact Hk. reflexivity.
Qed.
Lemma slab_shape_ok : slab_shape s = D.
Proof. unfold slab_shape. cbn [s s_axis]. fold s. rewrite meshshape_ok. apply dims_D. Qed.
Lemma pos_nth i j : i < n -> inside j D -> nth i (pos j) 0%R = bval (slab_coord i) j.
Proof. intros H HJ. rewrite (pos_eq j HJ). rewrite (nth_map _ _ _ _ 0) by (rewrite seq_length; exact H). rewrite seq_nth by exact H. reflexivity. Qed.
Lemma prod_ones (l : list nat) : fold_right Nat.mul 1 (map (fun _ => 1) l) = 1.
Proof. induction l as [|k l IH]; [reflexivity|]. cbn [map fold_right]. rewrite IH. reflexivity. Qed.
Lemma axis_float : to_float (slab_coord a) = Ok (nth islab (nth a xs []) 0%R).
Proof.
  unfold to_float. cbn [shape slab_coord]. assert (E : map (fun j => if j =? a then dim a else 1) L = map (fun _ => 1) L).
  { apply map_ext_in. intros k Hk. apply in_remove_seq in Hk as [_ Hk]; [|exact Ha]. destruct (Nat.eqb_spec k a); [lia|reflexivity]. }
  rewrite E, prod_ones, Nat.eqb_refl. cbn [val slab_coord]. rewrite Nat.eqb_refl. f_equal. f_equal. rewrite nth_insert by (rewrite repeat_length, map_length, L_length; lia). rewrite Nat.ltb_irrefl, Nat.eqb_refl. reflexivity.
Qed.
Lemma weights_none : sym = None -> hermitian_weights s = Ok (inl 1%R).
Proof. intros E. unfold hermitian_weights. cbn [s s_sym]. rewrite E. reflexivity. Qed.
Lemma weights_some z : sym = Some (Z.of_nat z) -> z < n ->
  exists w, hermitian_weights s = Ok w /\ (match w with inl _ => True | inr t => shape t = D end) /\ forall j, inside j D -> weight_at w j = if rltb 0 (nth z (pos j) 0%R) then 2%R else 1%R.
Proof.
  intros E Hz. unfold hermitian_weights. cbn [s s_sym s_axis]. rewrite E. fold s. destruct (Z.eqb_spec (Z.of_nat a) (Z.of_nat z)) as [EZ|NZ].
  - apply Nat2Z.inj in EZ. subst z. rewrite coords_ok by exact Ha. cbn [rbind]. rewrite axis_float. cbn [rbind]. eexists. split; [reflexivity|]. split; [exact I|]. intros j HJ. cbn [weight_at].
    rewrite (pos_nth a j Ha HJ), slab_bval by assumption. assert (LJ : length j = n - 1) by (apply inside_nth in HJ as [LJ _]; rewrite D_length in LJ; exact LJ).
    rewrite nth_insert by lia. rewrite Nat.ltb_irrefl, Nat.eqb_refl. reflexivity.
  - assert (N : z <> a) by (intros ->; apply NZ; reflexivity). unfold nonsingular. cbn [s s_axis s_coords]. fold s. destruct (Z.eqb_spec (Z.of_nat z) (Z.of_nat a)); [lia|].
    rewrite Nat2Z.id, (mesh_nth xs z Hz).
    assert (ET : take (lift1 (rltb 0) (coord xs z)) 0 a = Ok (lift1 (rltb 0) (slab_coord z))).
    { unfold take. cbn [shape lift1 coord]. unfold axis_shape. fold n. repeat match goal with |- context [length (nth ?i xs [])] => change (length (nth i xs [])) with (dim i) end. rewrite nth_error_map. 
      assert (nth_error (seq 0 n) a = Some a) as -> by (rewrite (nth_error_nth' _ 0) by (rewrite seq_length; exact Ha); rewrite seq_nth by exact Ha; reflexivity). cbn [option_map].
      destruct (Nat.eqb_spec a z); [lia|]. cbn [Nat.ltb Nat.leb]. rewrite remove_map. unfold lift1, slab_coord. cbn [shape val coord]. destruct (Nat.eqb_spec z a); [lia|]. reflexivity. }
    rewrite ET. cbn [rbind]. unfold assign_all. cbn [shape lift1]. rewrite slab_shape_ok.
    assert (EB : bshape D (shape (slab_coord z)) = Ok D).
    { cbn [shape slab_coord]. unfold D. apply bshape_map. intros k _. destruct (Nat.eqb_spec k z) as [->|]; [apply bdim_same|apply bdim_1r]. }
    rewrite EB. cbn [rbind]. destruct (list_eq_dec Nat.eq_dec D D) as [_|F]; [|contradiction]. cbn [rbind]. eexists. split; [reflexivity|]. split; [reflexivity|].
    intros j HJ. cbn [weight_at lift1 val]. rewrite (pos_nth z j Hz HJ). reflexivity.
Qed.
Lemma nonsingular_ok z : z < n -> exists t, nonsingular s (Z.of_nat z) = Ok t /\ shape t = D /\ forall j, inside j D -> val t j = rltb 0 (nth z (pos j) 0%R).
Proof.
  intros Hz. unfold nonsingular. cbn [s s_axis s_coords]. fold s. destruct (Z.eqb_spec (Z.of_nat z) (Z.of_nat a)) as [EZ|NZ].
  - apply Nat2Z.inj in EZ. subst z. rewrite coords_ok by exact Ha. cbn [rbind]. rewrite axis_float. cbn [rbind]. eexists. split; [reflexivity|]. cbn [full shape val]. split; [apply slab_shape_ok|]. intros j HJ.
    rewrite (pos_nth a j Ha HJ), slab_bval by assumption. assert (LJ : length j = n - 1) by (apply inside_nth in HJ as [LJ _]; rewrite D_length in LJ; exact LJ).
    rewrite nth_insert by lia. rewrite Nat.ltb_irrefl, Nat.eqb_refl. reflexivity.
  - assert (N : z <> a) by (intros ->; apply NZ; reflexivity). rewrite Nat2Z.id, (mesh_nth xs z Hz).
    assert (ET : take (lift1 (rltb 0) (coord xs z)) 0 a = Ok (lift1 (rltb 0) (slab_coord z))).
    { unfold take. cbn [shape lift1 coord]. unfold axis_shape. fold n. repeat match goal with |- context [length (nth ?i xs [])] => change (length (nth i xs [])) with (dim i) end. rewrite nth_error_map. 
      assert (nth_error (seq 0 n) a = Some a) as -> by (rewrite (nth_error_nth' _ 0) by (rewrite seq_length; exact Ha); rewrite seq_nth by exact Ha; reflexivity). cbn [option_map].
      destruct (Nat.eqb_spec a z); [lia|]. cbn [Nat.ltb Nat.leb]. rewrite remove_map. unfold lift1, slab_coord. cbn [shape val coord]. destruct (Nat.eqb_spec z a); [lia|]. reflexivity. }
    rewrite ET. cbn [rbind]. unfold assign_all. cbn [shape lift1]. rewrite slab_shape_ok.
    assert (EB : bshape D (shape (slab_coord z)) = Ok D).
    { cbn [shape slab_coord]. unfold D. apply bshape_map. intros k _. destruct (Nat.eqb_spec k z) as [->|]; [apply bdim_same|apply bdim_1r]. }
    rewrite EB. cbn [rbind]. destruct (list_eq_dec Nat.eq_dec D D) as [_|F]; [|contradiction]. eexists. split; [reflexivity|]. split; [reflexivity|].
    intros j HJ. cbn [lift1 val]. rewrite (pos_nth z j Hz HJ). reflexivity.
Qed.
Lemma at_index_ok {V} (v : nd V) : shape v = mesh_dims xs -> exists t, at_index s v = Ok t /\ shape t = D /\ forall j, val t j = val v (insert_nth a islab j).
Proof.
  intros H. unfold at_index, take. cbn [s s_axis s_index]. rewrite H. unfold mesh_dims. rewrite nth_error_map, (nth_error_nth' xs []) by exact Ha. cbn [option_map].
  apply Nat.ltb_lt in Hi. rewrite Hi. eexists. split; [reflexivity|]. cbn [shape val]. split; [exact dims_D|reflexivity].
Qed.
End Slab.

(* every cell is in one slab *)
Lemma cell_split xs a g : a < length xs -> cell xs g -> exists j, inside j (remove_nth a (mesh_dims xs)) /\ nth a g 0 < length (nth a xs []) /\ g = insert_nth a (nth a g 0) j.
Proof.
  intros Ha H. assert (LG : length g = length xs) by (clear Ha; induction H; cbn [length]; lia).
  assert (HN : forall k, k < length xs -> nth k g 0 < length (nth k xs [])).
  { clear LG Ha. induction H as [|i x g xs Hi H IH]; intros [|k] Hk; cbn [length nth] in *; try lia; auto. apply IH. lia. }
  exists (remove_nth a g). split; [|split; [apply HN, Ha|]].
  - apply inside_nth. unfold mesh_dims. rewrite !remove_length by (rewrite ?map_length; lia). rewrite map_length. split; [lia|]. intros k Hk. rewrite !nth_remove by (rewrite ?map_length; lia).
    assert (G : forall k, k < length xs -> nth k (map (@length R) xs) 0 = length (nth k xs [])) by (intros m Hm; rewrite (nth_indep _ 0 (length (@nil R))) by (rewrite map_length; exact Hm); apply map_nth).
    destruct (Nat.ltb_spec k a); rewrite G by lia; apply HN; lia.
  - symmetry. apply insert_remove; [|reflexivity]. apply nth_error_nth'. lia.
Qed.
Lemma cell_join xs a i j : a < length xs -> i < length (nth a xs []) -> inside j (remove_nth a (mesh_dims xs)) -> cell xs (insert_nth a i j).
Proof.
  intros Ha Hi HJ. apply inside_nth in HJ as [LJ HJ]. unfold mesh_dims in *. rewrite remove_length in * by (rewrite map_length; lia). rewrite map_length in *.
  assert (G : forall g, length g = length xs -> (forall k, k < length xs -> nth k g 0 < length (nth k xs [])) -> cell xs g).
  { clear. induction xs as [|x xs IH]; intros [|i g] LG H; cbn [length] in *; try lia; [constructor|]. constructor; [apply (H 0); lia|]. apply IH; [lia|]. intros k Hk. apply (H (S k)). lia. }
  apply G; [rewrite insert_length; lia|]. intros k Hk. rewrite nth_insert by lia.
  assert (M : forall k, k < length xs -> nth k (map (@length R) xs) 0 = length (nth k xs [])) by (intros m Hm; rewrite (nth_indep _ 0 (length (@nil R))) by (rewrite map_length; exact Hm); apply map_nth).
  destruct (Nat.ltb_spec k a).
  - specialize (HJ k ltac:(lia)). rewrite nth_remove in HJ by (rewrite map_length; lia). destruct (Nat.ltb_spec k a); [|lia]. rewrite M in HJ by lia. exact HJ.
  - destruct (Nat.eqb_spec k a) as [->|]; [exact Hi|]. specialize (HJ (k - 1) ltac:(lia)). rewrite nth_remove in HJ by (rewrite map_length; lia). destruct (Nat.ltb_spec (k - 1) a); [lia|]. replace (k - 1 + 1) with k in HJ by lia. rewrite M in HJ by lia. exact HJ.
Qed.
Lemma insert_inj {A} a (i i' : A) j j' : a <= length j -> a <= length j' -> insert_nth a i j = insert_nth a i' j' -> i = i' /\ j = j'.
Proof.
  intros H H' E. split.
  - pose proof (nth_insert_same a i j H) as N. rewrite E, nth_insert_same in N by exact H'. congruence.
  - rewrite <- (remove_insert a i j H), E. apply remove_insert, H'.
Qed.

(* the iterator *)
Lemma shapes_ok xs : forallb (fun ic => if list_eq_dec Nat.eq_dec (shape (snd ic)) (axis_shape (length xs) (fst ic) (nth (fst ic) (shape (snd ic)) 0)) then true else false) (combine (seq 0 (length xs)) (mesh_coords xs)) = true.
Proof.
  apply forallb_forall. intros [i c] Hin. destruct (In_nth_error _ _ Hin) as [k Hk]. 
  assert (E : nth_error (combine (seq 0 (length xs)) (mesh_coords xs)) k = match nth_error (seq 0 (length xs)) k, nth_error (mesh_coords xs) k with Some x, Some y => Some (x, y) | _, _ => None end).
  { generalize (seq 0 (length xs)) (mesh_coords xs). clear. induction k as [|k IH]; intros [|x l] [|y m]; cbn [combine nth_error]; auto. destruct (nth_error l k); reflexivity. }
  rewrite E in Hk. destruct (Nat.lt_ge_cases k (length xs)) as [H|H].
  - rewrite (mesh_nth xs k H), (nth_error_nth' _ 0) in Hk by (rewrite seq_length; exact H). rewrite seq_nth in Hk by exact H. injection Hk as <- <-. cbn [fst snd Nat.add shape coord].
    assert (N : nth k (axis_shape (length xs) k (length (nth k xs []))) 0 = length (nth k xs [])).
    { unfold axis_shape. rewrite (nth_map _ _ _ _ 0) by (rewrite seq_length; exact H). rewrite seq_nth by exact H. cbn [Nat.add]. rewrite Nat.eqb_refl. reflexivity. }
    rewrite N. destruct (list_eq_dec Nat.eq_dec _ _); [reflexivity|contradiction].
  - assert (nth_error (seq 0 (length xs)) k = None) as EN by (apply nth_error_None; rewrite seq_length; exact H). rewrite EN in Hk. discriminate.
Qed.
Lemma iterator_ok xs z a sym : (length xs = 2 \/ length xs = 3) -> means (length xs) z a -> (forall y, sym = Some y -> exists b, means (length xs) y b) ->
  exists sym', (forall y b, sym = Some y -> means (length xs) y b -> sym' = Some (Z.of_nat b)) /\ (sym = None -> sym' = None) /\
  slab_iterator (mesh_coords xs) z sym = Ok (map (fun i => {| s_index := i; s_coords := mesh_coords xs; s_axis := a; s_sym := sym' |}) (seq 0 (length (nth a xs [])))).
Proof.
  intros DIM [Ha HZ] HS. unfold slab_iterator. rewrite mesh_length. replace ((length xs =? 2) || (length xs =? 3)) with true by (destruct DIM as [-> | ->]; reflexivity). cbn [negb].
  assert (EZ : (if z <? 0 then z + Z.of_nat (length xs) else z)%Z = Z.of_nat a) by (destruct (Z.ltb_spec z 0); lia). rewrite EZ.
  destruct (Z.ltb_spec (Z.of_nat a) 0); [lia|]. destruct (Z.leb_spec (Z.of_nat (length xs)) (Z.of_nat a)); [lia|]. cbn [orb]. rewrite shapes_ok. cbn [negb]. rewrite Nat2Z.id, (mesh_nth xs a Ha). cbn [shape coord].
  assert (N : nth a (axis_shape (length xs) a (length (nth a xs []))) 0 = length (nth a xs [])).
  { unfold axis_shape. rewrite (nth_map _ _ _ _ 0) by (rewrite seq_length; exact Ha). rewrite seq_nth by exact Ha. cbn [Nat.add]. rewrite Nat.eqb_refl. reflexivity. }
  rewrite N. assert (R : forall sym', (forall y, sym' = Some y -> (0 <= y)%Z) -> forall l, rall (map (fun i => mesh_slab i (mesh_coords xs) a sym') l) = Ok (map (fun i => {| s_index := i; s_coords := mesh_coords xs; s_axis := a; s_sym := sym' |}) l)).
  { intros sym' P. induction l as [|i l IH]; [reflexivity|]. cbn [map rall]. rewrite IH. unfold mesh_slab. destruct sym' as [y|]; [|reflexivity]. specialize (P y eq_refl). destruct (Z.ltb_spec y 0); [lia|]. reflexivity. }
  destruct sym as [y|].
  - destruct (HS y eq_refl) as (b & Hb & Hy). exists (Some (Z.of_nat b)). split; [|split; [discriminate|]].
    + intros y' b' E [Hb' Hy']. injection E as <-. f_equal. lia.
    + assert (EY : (if y <? 0 then y + Z.of_nat (length xs) else y)%Z = Z.of_nat b) by (destruct (Z.ltb_spec y 0); lia). rewrite EY. apply R. intros y' E. injection E as <-. lia.
  - exists None. split; [discriminate|]. split; [reflexivity|]. apply R. discriminate.
Qed.
Theorem slabs_ok xs z a sym : (length xs = 2 \/ length xs = 3) -> means (length xs) z a -> (forall y, sym = Some y -> exists b, means (length xs) y b) ->
  exists slabs, slab_iterator (mesh_coords xs) z sym = Ok slabs /\ length slabs = length (nth a xs []) /\
  forall i s, nth_error slabs i = Some s ->
    slab_shape s = remove_nth a (mesh_dims xs) /\
    (exists t, norm2 s = Ok t /\ shape t = slab_shape s /\ forall j, inside j (slab_shape s) -> val t j = rdot (position xs (insert_nth a i j)) (position xs (insert_nth a i j))) /\
    (forall los, length los = length xs -> exists t, mu s los = Ok t /\ shape t = slab_shape s /\ forall j, inside j (slab_shape s) -> is_mu (position xs (insert_nth a i j)) los (val t j)) /\
    (exists w, hermitian_weights s = Ok w /\ (forall t, w = inr t -> shape t = slab_shape s) /\ forall j, inside j (slab_shape s) -> is_weight (length xs) sym (position xs (insert_nth a i j)) (weight_at w j)) /\
    (forall (V : Type) (v : nd V), shape v = mesh_dims xs -> exists t, at_index s v = Ok t /\ shape t = slab_shape s /\ forall j, val t j = val v (insert_nth a i j)).
Proof.
  intros DIM HM HS. destruct (iterator_ok xs z a sym DIM HM HS) as (sym' & S1 & S2 & E). rewrite E. eexists. split; [reflexivity|]. split; [rewrite map_length, seq_length; reflexivity|].
  intros i s Hs. rewrite nth_error_map in Hs. destruct (nth_error (seq 0 (length (nth a xs []))) i) as [k|] eqn:EK; [|discriminate]. cbn [option_map] in Hs. injection Hs as <-.
  assert (Hi : i < length (nth a xs [])) by (rewrite <- (seq_length (length (nth a xs [])) 0); apply nth_error_Some; congruence).
  rewrite (nth_error_nth' _ 0), seq_nth in EK by (rewrite ?seq_length; exact Hi). injection EK as <-. cbn [Nat.add]. destruct HM as [Ha HZ].
  assert (SS : slab_shape {| s_index := i; s_coords := mesh_coords xs; s_axis := a; s_sym := sym' |} = remove_nth a (mesh_dims xs)) by (rewrite (slab_shape_ok xs a i sym'); symmetry; apply dims_D).
  pose proof (dims_D xs a) as DD. split; [exact SS|]. rewrite SS, DD.
  split; [|split; [|split]].
  - destruct (norm2_ok xs a Ha i Hi sym') as (t & E1 & E2 & E3). exists t. split; [exact E1|]. split; [exact E2|]. intros j HJ. apply E3, HJ.
  - intros los HL. destruct (mu_ok xs a Ha i Hi sym' los HL) as (t & E1 & E2 & E3). exists t. split; [exact E1|]. split; [exact E2|]. intros j HJ. rewrite (E3 j HJ). unfold is_mu, pos, reqb. destruct (Req_EM_T _ _) as [EQ|NQ]; auto.
  - destruct sym as [y|].
    + destruct (HS y eq_refl) as (b & Hb & Hy). specialize (S1 y b eq_refl (conj Hb Hy)). destruct (weights_some xs a Ha i Hi sym' b S1 Hb) as (w & E1 & E2 & E3). exists w. split; [exact E1|].
      split; [intros t ->; exact E2|]. intros j HJ. rewrite (E3 j HJ). intros b' Hb'. assert (b' = b) as -> by (destruct Hb' as [? ?]; lia). unfold rltb, pos. destruct (Rlt_dec _ _); [left|right]; split; auto. lra.
    + rewrite (weights_none xs a i sym' (S2 eq_refl)). eexists. split; [reflexivity|]. split; [discriminate|]. reflexivity.
  - intros V v Hv. destruct (at_index_ok xs a Ha i Hi sym' v Hv) as (t & E1 & E2 & E3). exists t. auto.
Qed.
Theorem nonsingular_slabs xs z a y b : (length xs = 2 \/ length xs = 3) -> means (length xs) z a -> means (length xs) y b ->
  exists slabs, slab_iterator (mesh_coords xs) z (Some y) = Ok slabs /\
  forall i s, nth_error slabs i = Some s -> exists sym t, s_sym s = Some sym /\ nonsingular s sym = Ok t /\ shape t = remove_nth a (mesh_dims xs) /\
    forall j, inside j (shape t) -> val t j = true <-> (0 < nth b (position xs (insert_nth a i j)) 0)%R.
Proof.
  intros DIM HM HB. destruct (iterator_ok xs z a (Some y) DIM HM) as (sym' & S1 & S2 & E). { intros y' Q. injection Q as <-. exists b. exact HB. }
  rewrite E. eexists. split; [reflexivity|]. specialize (S1 y b eq_refl HB).
  intros i s Hs. rewrite nth_error_map in Hs. destruct (nth_error (seq 0 (length (nth a xs []))) i) as [k|] eqn:EK; [|discriminate]. cbn [option_map] in Hs. injection Hs as <-.
  assert (Hi : i < length (nth a xs [])) by (rewrite <- (seq_length (length (nth a xs [])) 0); apply nth_error_Some; congruence).
  rewrite (nth_error_nth' _ 0), seq_nth in EK by (rewrite ?seq_length; exact Hi). injection EK as <-. cbn [Nat.add s_sym]. destruct HM as [Ha HZ]. destruct HB as [Hb HY].
  destruct (nonsingular_ok xs a Ha i Hi sym' b Hb) as (t & E1 & E2 & E3). exists (Z.of_nat b), t. split; [exact S1|]. split; [exact E1|]. split; [rewrite E2; symmetry; apply dims_D|].
  intros j HJ. rewrite E2 in HJ. rewrite (E3 j HJ). unfold rltb, pos. destruct (Rlt_dec _ _) as [P|P]; split; intros Q; auto. discriminate.
Qed.
Theorem cells_once xs a g : a < length xs -> cell xs g ->
  exists i j, (i < length (nth a xs []) /\ inside j (remove_nth a (mesh_dims xs)) /\ g = insert_nth a i j) /\
  forall i' j', inside j' (remove_nth a (mesh_dims xs)) -> g = insert_nth a i' j' -> i' = i /\ j' = j.
Proof.
  intros Ha Hg. destruct (cell_split xs a g Ha Hg) as (j & H1 & H2 & H3). exists (nth a g 0), j. split; [auto|]. intros i' j' HJ E.
  assert (LJ : forall j, inside j (remove_nth a (mesh_dims xs)) -> a <= length j).
  { intros q Hq. apply inside_nth in Hq as [Hq _]. unfold mesh_dims in Hq. rewrite remove_length in Hq by (rewrite map_length; exact Ha). rewrite map_length in Hq. lia. }
  apply (insert_inj a); [apply LJ, HJ|apply LJ, H1|]. congruence.
Qed.
Theorem refused_axis xs z sym : (length xs = 2 \/ length xs = 3) -> (forall a, ~ means (length xs) z a) -> slab_iterator (mesh_coords xs) z sym = Err AssertionError.
Proof.
  intros DIM H. unfold slab_iterator. rewrite mesh_length. replace ((length xs =? 2) || (length xs =? 3)) with true by (destruct DIM as [-> | ->]; reflexivity). cbn [negb].
  assert (G : forall y, y = (if z <? 0 then z + Z.of_nat (length xs) else z)%Z -> ((y <? 0) || (Z.of_nat (length xs) <=? y))%Z = true).
  { intros y Hy. destruct (Z.ltb_spec y 0); [reflexivity|]. destruct (Z.leb_spec (Z.of_nat (length xs)) y); [reflexivity|]. exfalso. apply (H (Z.to_nat y)). split; [lia|]. destruct (Z.ltb_spec z 0); lia. }
  rewrite (G _ eq_refl). reflexivity.
Qed.
Theorem refused_dims cs z sym : length cs <> 2 -> length cs <> 3 -> slab_iterator cs z sym = Err RuntimeError.
Proof. intros H2 H3. unfold slab_iterator. apply Nat.eqb_neq in H2, H3. rewrite H2, H3. reflexivity. Qed.
