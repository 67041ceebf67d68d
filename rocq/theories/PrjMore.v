From Verif Require Import Base BaseProofs.
From Coq Require Import Reals Lra Permutation.
From Verif Require Import RandModel RandProofs ThreeModel ThreeProofs SkyModel ConvModel MockModel MockSpec MockProofs MockMean DftModel DftSpec DftProofs DftMain UniqModel UniqProofs PrjModel PrjSpec PrjProofs PrjMain.
Local Open Scope R_scope.
Local Notation length := List.length.

(* ---- the bins ---- *)
Lemma arange_len a b s : 0 < s -> a < b -> exists n, length (arange a b s) = S n /\ a + INR n * s < b <= a + INR (S n) * s.
Proof.
  intros HS HL. unfold arange. rewrite map_length, seq_length. set (q := (b - a) / s). assert (Q : 0 < q) by (apply Rdiv_lt_0_compat; lra).
  destruct (floor_spec (- q)) as [F1 F2]. set (z := (- Int_part (- q))%Z).
  assert (Z1 : q <= IZR z < q + 1) by (unfold z; rewrite opp_IZR; lra).
  assert (ZP : (0 < z)%Z) by (apply lt_IZR; lra).
  exists (Z.to_nat (z - 1)). split; [lia|].
  assert (E : b = a + q * s) by (unfold q; field; lra).
  rewrite S_INR, INR_IZR_INZ, Z2Nat.id, minus_IZR by lia. rewrite E. split.
  - apply Rplus_lt_compat_l. apply Rmult_lt_compat_r; [exact HS|]. lra.
  - apply Rplus_le_compat_l. apply Rmult_le_compat_r; lra.
Qed.
Lemma kedges_nyquist N L axes dk kmin K : some_axes axes -> nyquist N L axes K -> kedges N L axes dk kmin = arange kmin (K + dk / 2) dk.
Proof.
  intros HA (a & b & IA & IB & HM & ->). unfold kedges. f_equal. f_equal.
  assert (E1 : rmin (map INR (sizes N axes)) = INR (component a N) /\ fold_left Rmax (tl (map (fun c => len c L) axes)) (hd 0 (map (fun c => len c L) axes)) = extent b L).
  { assert (LE : forall c, (c < 3)%nat -> len c L = extent c L) by (intros c Hc; destruct L as [[x y] z]; destruct c as [|[|[|c]]]; try lia; reflexivity).
    destruct HA as (ND & H3 & HL). destruct axes as [|c [|d [|? ?]]]; cbn [length] in HL; try lia.
    - destruct IA as [<-|[]]. destruct IB as [<-|[]]. assert (C := H3 c (or_introl eq_refl)). split; [unfold sizes; cbn [map rmin fold_left]; rewrite (ax_component c N C); reflexivity|]. cbn [map hd tl fold_left]. apply LE, C.
    - assert (C := H3 c (or_introl eq_refl)). assert (D := H3 d (or_intror (or_introl eq_refl))).
      destruct (HM c (or_introl eq_refl)) as [M1 M2]. destruct (HM d (or_intror (or_introl eq_refl))) as [M3 M4].
      unfold sizes. cbn [map rmin fold_left hd tl]. rewrite (ax_component c N C), (ax_component d N D), (LE c C), (LE d D). apply le_INR in M1. apply le_INR in M3. split.
      + destruct IA as [<-|[<-|[]]]; [apply Rmin_left|apply Rmin_right]; assumption.
      + destruct IB as [<-|[<-|[]]]; [apply Rmax_left|apply Rmax_right]; assumption. }
  destruct E1 as [-> ->]. reflexivity.
Qed.
Lemma nyquist_some N L axes : some_axes axes -> exists K, nyquist N L axes K.
Proof.
  intros (ND & H3 & HL). destruct axes as [|c [|d [|? ?]]]; cbn [length] in HL; try lia.
  - eexists. exists c, c. cbn [In]. repeat split; auto; match goal with H : c = ?y \/ False |- _ => destruct H as [<-|[]] end; [lia|lra].
  - destruct (Nat.le_ge_cases (component c N) (component d N)) as [A|A]; destruct (Rle_dec (extent c L) (extent d L)) as [B|B]; eexists.
    + exists c, d. cbn [In]. repeat split; auto; match goal with H : c = ?y \/ _ |- _ => destruct H as [<-|[<-|[]]] end; lia || lra.
    + exists c, c. cbn [In]. repeat split; auto; match goal with H : c = ?y \/ _ |- _ => destruct H as [<-|[<-|[]]] end; lia || lra.
    + exists d, d. cbn [In]. repeat split; auto; match goal with H : c = ?y \/ _ |- _ => destruct H as [<-|[<-|[]]] end; lia || lra.
    + exists d, c. cbn [In]. repeat split; auto; match goal with H : c = ?y \/ _ |- _ => destruct H as [<-|[<-|[]]] end; lia || lra.
Qed.
Lemma width_pos L dk : positive3 L -> (forall d, dk = Some d -> 0 < d) -> 0 < width L dk.
Proof.
  intros HP HD. destruct dk as [d|]; [apply HD; reflexivity|]. destruct L as [[x y] z]. destruct HP as (X & Y & Z). unfold width. cbn [extent nth]. assert (P := PI_RGT_0).
  apply Rdiv_lt_0_compat; [lra|]. apply Rmin_pos; [exact X|apply Rmin_pos; assumption].
Qed.
Lemma init_run N L axes dk kmin f g : positive3 L -> some_axes axes -> (forall d, dk = Some d -> 0 < d) ->
  ProjectedFFTPower N L (Sequence axes) dk kmin f g = run N L axes f (match g with Some g => g | None => f end) (width L dk) kmin.
Proof.
  intros HP HA HD. unfold ProjectedFFTPower. assert (HL := proj2 (proj2 HA)).
  replace (negb ((length axes =? 1) || (length axes =? 2))%nat) with false by (destruct HL as [-> | ->]; reflexivity).
  replace (existsb (fun a => (3 <=? a)%nat) axes) with false.
  - assert (W := width_pos L dk HP HD). assert (EW : match dk with Some d => d | None => 2 * PI / Rmin (Rmin (len 0 L) (len 1 L)) (len 2 L) end = width L dk).
    { destruct dk; [reflexivity|]. unfold width. destruct L as [[x y] z]. cbn [len extent nth]. rewrite Rmin_assoc. reflexivity. }
    rewrite EW. unfold ceq0. destruct (Req_EM_T (width L dk) 0) as [E|_]; [lra|reflexivity].
  - symmetry. destruct (existsb _ axes) eqn:E; [|reflexivity]. apply existsb_exists in E. destruct E as (a & A & B). apply Nat.leb_le in B. assert (C := proj1 (proj2 HA) a A). lia.
Qed.
Lemma run_ok N L axes f g dk kmin K : some_axes axes -> nyquist N L axes K -> 0 < dk -> kmin < K + dk / 2 -> exists r, run N L axes f g dk kmin = Ok r.
Proof.
  intros HA HK HD HL. unfold run. rewrite (kedges_nyquist N L axes dk kmin K HA HK). destruct (arange_len kmin (K + dk / 2) dk HD HL) as (n & E & _).
  destruct (arange kmin (K + dk / 2) dk); [discriminate E|]. eexists. reflexivity.
Qed.
(* ---- C315 ---- *)
Lemma slices N L axes dk kmin K f g : mesh_size N -> positive3 L -> some_axes axes -> even_last N axes -> (forall d, dk = Some d -> 0 < d) ->
  nyquist N L axes K -> kmin < K + width L dk / 2 ->
  exists r n, ProjectedFFTPower N L (Sequence axes) dk kmin f g = Ok r /\
    length (edges r) = S n /\ length (bins r) = n /\ kmin + INR n * width L dk < K + width L dk / 2 <= kmin + INR (S n) * width L dk /\
    (forall i x, nth_error (edges r) i = Some x -> x = kmin + INR i * width L dk) /\
    forall i, (i < n)%nat ->
    exists l b, shell N L axes (kmin + INR i * width L dk) (kmin + INR (S i) * width L dk) l /\ nth_error (bins r) i = Some b /\
      b_modes b = INR (length l) /\ b_k b = mean_of (fun m => size3 (kvec N L m)) l /\
      match b_power b with
      | None => l = []
      | Some p => mean_of (fun m => fst (power N L f (match g with Some g => g | None => f end) m) / depth L axes) l = Some (fst p) /\ (g = None -> snd p = 0)
      end.
Proof.
  intros HN HP HA HE HD HK HL. assert (WP := width_pos L dk HP HD). rewrite (init_run N L axes dk kmin f g HP HA HD). set (g' := match g with Some g => g | None => f end).
  destruct (run_ok N L axes f g' (width L dk) kmin K HA HK WP HL) as [r Er]. destruct (run_bins N L axes f g' (width L dk) kmin r HN HP HA HE WP Er) as (EE & EB & HB).
  rewrite (kedges_nyquist N L axes _ kmin K HA HK) in EE. destruct (arange_len kmin (K + width L dk / 2) (width L dk) WP HL) as (n & En & Hn). rewrite <- EE in En.
  exists r, n. split; [exact Er|]. split; [exact En|]. split; [rewrite EB, En; lia|]. split; [exact Hn|].
  assert (HX : forall i x, nth_error (edges r) i = Some x -> x = kmin + INR i * width L dk) by (intros i x X; rewrite EE in X; exact (arange_nth _ _ _ _ _ X)).
  split; [exact HX|]. intros i Hi.
  destruct (nth_error (edges r) i) as [lo|] eqn:A; [|apply nth_error_None in A; lia]. destruct (nth_error (edges r) (S i)) as [hi|] eqn:B; [|apply nth_error_None in B; lia].
  destruct (HB i lo hi A B) as (l & b & S1 & S2 & S3 & S4 & S5). exists l, b. rewrite <- (HX i lo A), <- (HX (S i) hi B). split; [exact S1|]. split; [exact S2|]. split; [exact S3|]. split; [exact S4|].
  destruct (b_power b) as [p|]; [|exact S5]. destruct S5 as [S5 S6]. split; [exact S5|]. intros ->. apply S6. reflexivity.
Qed.
(* ---- the result depends on pk ---- *)
Lemma half_in N axes m : mesh_size N -> some_axes axes -> In m (grid (half (sizes N axes))) -> In m (grid (sizes N axes)).
Proof.
  intros HN HA. rewrite (half_split N axes HA), (sizes_split N axes HA), !in_grid. set (s := sizes N (removelast axes)). assert (P := size_pos N _ HN (last_lt axes HA)). set (n := ax (last axes 0%nat) N) in *.
  intros H. apply Forall2_app_inv_r in H. destruct H as (u & v & U & V & ->). apply Forall2_app; [exact U|]. inversion_clear V as [|i ? v' ? I V']. inversion_clear V'. constructor; [|constructor]. change (fst (Nat.divmod n 1 0 1)) with (n / 2)%nat in I.
  assert (n / 2 + 1 <= n)%nat; [|lia]. destruct n as [|[|n]]; [lia|cbn; lia|]. assert (D := Nat.div_lt (S (S n)) 2 ltac:(lia) ltac:(lia)). lia.
Qed.
Lemma bincount_ext N L axes e w w' b : mesh_size N -> some_axes axes -> (forall m, In m (grid (sizes N axes)) -> w m = w' m) -> bincount N L axes e w b = bincount N L axes e w' b.
Proof. intros HN HA H. unfold bincount. apply rsum_ext'. intros m M. apply filter_In in M. apply H. apply half_in; [exact HN|exact HA|apply M]. Qed.
Lemma run_ext N L axes f g f' g' dk kmin : mesh_size N -> some_axes axes -> (forall m, In m (grid (sizes N axes)) -> pk N axes f g m = pk N axes f' g' m) -> run N L axes f g dk kmin = run N L axes f' g' dk kmin.
Proof.
  intros HN HA H. unfold run. destruct (kedges N L axes dk kmin) as [|e0 et]; [reflexivity|]. f_equal. f_equal. apply map_ext. intros b.
  rewrite (bincount_ext N L axes (e0 :: et) (fun m => W N axes m * fst (pk N axes f g m)) (fun m => W N axes m * fst (pk N axes f' g' m))) by (assumption || (intros m HL; rewrite (H m HL); reflexivity)).
  rewrite (bincount_ext N L axes (e0 :: et) (fun m => W N axes m * snd (pk N axes f g m)) (fun m => W N axes m * snd (pk N axes f' g' m))) by (assumption || (intros m HL; rewrite (H m HL); reflexivity)).
  reflexivity.
Qed.
Lemma eql_along axes x y : (forall a, In a axes -> (a < 3)%nat) -> eql (map (fun a => ax a y) axes) (map (fun a => ax a x) axes) = along axes x y.
Proof.
  intros H3. unfold along. induction axes as [|a r IH]; [reflexivity|]. cbn [map eql forallb]. rewrite IH by (intros b B; apply H3; right; exact B).
  rewrite !ax_component by (apply H3; left; reflexivity). rewrite Nat.eqb_sym. reflexivity.
Qed.
Lemma along_self axes x : along axes x x = true.
Proof. unfold along. apply forallb_forall. intros a _. apply Nat.eqb_refl. Qed.
Lemma column_pos N axes x : is_mode N x -> 0 < INR (length (filter (along axes x) (cells N))).
Proof.
  intros X. apply lt_0_INR. assert (I : In x (filter (along axes x) (cells N))) by (apply filter_In; split; [apply in_cells; exact X|apply along_self]). destruct (filter _ _); [destruct I|cbn [length]; lia].
Qed.
Lemma preview_flattened N axes f c : some_axes axes -> mesh_size N -> In c (grid (sizes N axes)) ->
  preview N axes f c = flattened N axes f (lifted axes c) * INR (length (filter (along axes (lifted axes c)) (cells N))).
Proof.
  intros HA HN C. destruct (lifted_mode N axes c HA HN C) as [M _]. assert (P := column_pos N axes (lifted axes c) M). unfold flattened, preview. cbn zeta. unfold Rdiv. rewrite Rmult_assoc, Rinv_l, Rmult_1_r by lra.
  f_equal. f_equal. apply filter_ext. intros x. rewrite <- (lifted_back N axes c HA C) at 1. apply eql_along. exact (proj1 (proj2 HA)).
Qed.
Lemma ck_columns N axes f f' m : some_axes axes -> mesh_size N -> (forall x, is_mode N x -> flattened N axes f x = flattened N axes f' x) -> ck N axes f m = ck N axes f' m.
Proof.
  intros HA HN H. assert (E : forall c, In c (grid (sizes N axes)) -> preview N axes f c = preview N axes f' c).
  { intros c C. rewrite !(preview_flattened N axes) by assumption. rewrite H by (apply (lifted_mode N axes c HA HN C)). reflexivity. }
  unfold ck, rfftn. f_equal. f_equal; [|f_equal]; apply rsum_ext'; intros c C; rewrite (E c C); reflexivity.
Qed.
Lemma columns_only N L axes dk kmin f f' g g' : mesh_size N -> some_axes axes ->
  (forall x, is_mode N x -> flattened N axes f x = flattened N axes f' x) -> (forall x, is_mode N x -> flattened N axes g x = flattened N axes g' x) ->
  run N L axes f g dk kmin = run N L axes f' g' dk kmin.
Proof. intros HN HA HF HG. apply run_ext; [exact HN|exact HA|]. intros m _. unfold pk. rewrite (ck_columns N axes f f' m HA HN HF), (ck_columns N axes g g' m HA HN HG). reflexivity. Qed.
Lemma pk_ext N axes f g f' g' m : some_axes axes -> length m = length axes -> power N (1, 1, 1) f g (lifted axes m) = power N (1, 1, 1) f' g' (lifted axes m) -> pk N axes f g m = pk N axes f' g' m.
Proof.
  intros HA HL E. assert (P1 : positive3 (1, 1, 1)) by (repeat split; lra).
  assert (T := pk_power N (1, 1, 1) axes f g m P1 HA HL). assert (T' := pk_power N (1, 1, 1) axes f' g' m P1 HA HL). rewrite E, <- T' in T. clear T'.
  assert (A1 : area (1, 1, 1) axes = 1) by (each_axes HA; cbn; ring). rewrite A1 in T. unfold cscale in T. pose proof (f_equal fst T) as T1. pose proof (f_equal snd T) as T2. cbn [fst snd] in T1, T2.
  rewrite (surjective_pairing (pk N axes f g m)), (surjective_pairing (pk N axes f' g' m)). f_equal; lra.
Qed.
Lemma sizes_len N axes m : In m (grid (sizes N axes)) -> length m = length axes.
Proof. intros H. apply grid_length in H. unfold sizes in H. rewrite map_length in H. exact H. Qed.
Lemma run_moved N L axes f g r c d dk kmin : mesh_size N -> some_axes axes ->
  run N L axes (fun x => f (moved N x r) + c) (fun x => g (moved N x r) + d) dk kmin = run N L axes f g dk kmin.
Proof.
  intros HN HA. apply run_ext; [exact HN|exact HA|]. intros m M. apply pk_ext; [exact HA|exact (sizes_len N axes m M)|]. destruct (lifted_mode N axes m HA HN M) as [MM _].
  rewrite <- (power_moved N (1, 1, 1) f g r _ HN MM).
  assert (T := power_offset N (1, 1, 1) (fun x => f (moved N x r)) (fun x => g (moved N x r)) 1 1 c d _ MM).
  rewrite !power_raw in T |- *. destruct (is_zero (lifted axes m)); [reflexivity|]. unfold raw in T |- *.
  rewrite (r2c_ext N (fun x => f (moved N x r) + c) (fun x => 1 * f (moved N x r) + c)) by (intros x _; ring).
  rewrite (r2c_ext N (fun x => g (moved N x r) + d) (fun x => 1 * g (moved N x r) + d)) by (intros x _; ring). rewrite T. unfold cscale. apply injective_projections; cbn [fst snd]; ring.
Qed.
(* ---- the power is at most the variance of the projected field ---- *)
Lemma flattened_column N axes f x y : (forall a, In a axes -> component a x = component a y) -> flattened N axes f x = flattened N axes f y.
Proof.
  intros H. unfold flattened. cbn zeta. replace (filter (along axes x) (cells N)) with (filter (along axes y) (cells N)); [reflexivity|]. apply filter_ext. intros z. unfold along. clear - H.
  induction axes as [|a r IH]; [reflexivity|]. cbn [forallb]. rewrite (H a (or_introl eq_refl)), IH by (intros b B; apply H; right; exact B). reflexivity.
Qed.
Lemma flattened_twice N axes f x : is_mode N x -> flattened N axes (flattened N axes f) x = flattened N axes f x.
Proof.
  intros X. assert (P := column_pos N axes x X). unfold flattened at 1. cbn zeta.
  rewrite (rsum_ext' _ (fun _ => flattened N axes f x)).
  - rewrite sum_const. field. lra.
  - intros y Y. apply filter_In in Y. destruct Y as [_ Y]. apply flattened_column. unfold along in Y. rewrite forallb_forall in Y. intros a A. symmetry. apply Nat.eqb_eq. apply Y, A.
Qed.
Lemma flat_power N L axes f m : mesh_size N -> some_axes axes -> In m (grid (sizes N axes)) ->
  power N L (flattened N axes f) (flattened N axes f) (lifted axes m) = power N L f f (lifted axes m).
Proof.
  intros HN HA M. rewrite !power_raw. unfold raw. rewrite <- !(ck_r2c N axes) by (assumption || exact (sizes_len N axes m M)).
  rewrite (ck_columns N axes (flattened N axes f) f m HA HN); [reflexivity|]. intros x X. apply flattened_twice, X.
Qed.
Lemma rsum_nonneg' {A} (h : A -> R) : forall l, (forall x, In x l -> 0 <= h x) -> 0 <= rsum (map h l).
Proof. induction l as [|x l IH]; intros H; [unfold rsum; cbn; lra|]. unfold rsum. cbn [map fold_right]. fold (rsum (map h l)). assert (A1 := H x (or_introl eq_refl)). assert (A2 := IH (fun y Y => H y (or_intror Y))). lra. Qed.
Lemma rsum_le' {A} (h k : A -> R) : forall l, (forall x, In x l -> h x <= k x) -> rsum (map h l) <= rsum (map k l).
Proof. induction l as [|x l IH]; intros H; [apply Rle_refl|]. unfold rsum. cbn [map fold_right]. fold (rsum (map h l)) (rsum (map k l)). assert (A1 := H x (or_introl eq_refl)). assert (A2 := IH (fun y Y => H y (or_intror Y))). lra. Qed.
(* a sum over some of the members of a list *)
Lemma rsum_sub (h : mode -> R) : forall l k, NoDup l -> NoDup k -> (forall x, In x l -> In x k) -> (forall x, In x k -> 0 <= h x) -> rsum (map h l) <= rsum (map h k).
Proof.
  induction l as [|x l IH]; intros k NL NK I P; [apply rsum_nonneg'; exact P|]. destruct (in_split x k (I x (or_introl eq_refl))) as (u & v & ->).
  apply NoDup_cons_iff in NL. destruct NL as [NX NL]. rewrite (rsum_perm (map h (u ++ x :: v)) (map h (x :: u ++ v))) by (apply Permutation_map, Permutation_sym, Permutation_middle).
  unfold rsum. cbn [map fold_right]. fold (rsum (map h l)) (rsum (map h (u ++ v))). apply Rplus_le_compat_l. apply IH.
  - exact NL.
  - exact (NoDup_remove_1 _ _ _ NK).
  - intros y Y. assert (J := I y (or_intror Y)). rewrite in_app_iff in *. cbn [In] in J. destruct J as [J|[->|J]]; [left; exact J|contradiction|right; exact J].
  - intros y Y. apply P. rewrite in_app_iff in *. cbn [In]. tauto.
Qed.
Lemma bins_disjoint {A} (h : A -> R) (d : A -> nat) n l : (forall x, In x l -> 0 <= h x) ->
  rsum (map (fun i => rsum (map h (filter (fun x => (d x =? S i)%nat) l))) (seq 0 n)) <= rsum (map h l).
Proof.
  intros P. rewrite (rsum_ext' _ (fun i => rsum (map (fun x => if (d x =? S i)%nat then h x else 0) l))) by (intros i _; apply rsum_filter). rewrite rsum_swap. apply rsum_le'. intros x X. specialize (P x X).
  destruct (Nat.eq_dec (d x) 0) as [Z|Z].
  - rewrite rsum_zero; [exact P|]. intros i _. rewrite Z. reflexivity.
  - destruct (lt_dec (pred (d x)) n) as [B|B].
    + rewrite (rsum_ext' _ (fun i => if (i =? pred (d x))%nat then h x else 0)).
      * rewrite (rsum_one Nat.eqb (fun _ => h x) (pred (d x)) Nat.eqb_eq); [lra|apply seq_NoDup|apply in_seq; lia].
      * intros i _. destruct (i =? pred (d x))%nat eqn:E; [apply Nat.eqb_eq in E|apply Nat.eqb_neq in E]; destruct (d x =? S i)%nat eqn:F; [reflexivity|apply Nat.eqb_neq in F; lia|apply Nat.eqb_eq in F; lia|reflexivity].
    + rewrite rsum_zero; [exact P|]. intros i I. apply in_seq in I. destruct (d x =? S i)%nat eqn:F; [apply Nat.eqb_eq in F; lia|reflexivity].
Qed.
Lemma power_variance N L axes f : mesh_size N -> positive3 L -> some_axes axes ->
  rsum (map (fun c => fst (power N L f f (lifted axes c)) / depth L axes) (grid (sizes N axes)))
  <= area L axes * (average N (fun x => flattened N axes f x * flattened N axes f x) - average N (flattened N axes f) * average N (flattened N axes f)).
Proof.
  intros HN HP HA. assert (D := depth_pos L axes HP HA). set (F := flattened N axes f).
  rewrite (rsum_ext' _ (fun c => fst (power N L F F (lifted axes c)) * / depth L axes)) by (intros c C; unfold F; rewrite (flat_power N L axes f c HN HA C); reflexivity).
  rewrite rsum_scr. apply (Rmult_le_reg_r (depth L axes)); [exact D|]. rewrite Rmult_assoc, Rinv_l, Rmult_1_r by lra.
  replace (area L axes * (average N (fun x => F x * F x) - average N F * average N F) * depth L axes) with (vol L * (average N (fun x => F x * F x) - average N F * average N F)) by (rewrite <- (area_depth L axes HA); ring).
  rewrite <- (power_total N L F F HN). rewrite <- (map_map (lifted axes) (fun m => fst (power N L F F m)) (grid (sizes N axes))). apply rsum_sub.
  - apply nodup_map_inj; [|apply nodup_grid]. intros x y X Y E. rewrite <- (lifted_back N axes x HA X), <- (lifted_back N axes y HA Y), E. reflexivity.
  - apply cells_nodup.
  - intros m M. apply in_map_iff in M. destruct M as (c & <- & C). apply in_cells. apply (lifted_mode N axes c HA HN C).
  - intros m _. apply auto_real. exact HP.
Qed.
(* ---- results, bin by bin ---- *)
Lemma rsum_nth {A} (h : A -> R) : forall l, rsum (map h l) = rsum (map (fun i => match nth_error l i with Some b => h b | None => 0 end) (seq 0 (length l))).
Proof.
  intros l. f_equal. apply nth_error_ext. intros i. rewrite !nth_error_map', nth_error_seq. destruct (i <? length l)%nat eqn:E.
  - apply Nat.ltb_lt in E. cbn [option_map]. change (0 + i)%nat with i. destruct (nth_error l i) eqn:F; [reflexivity|]. apply nth_error_None in F. lia.
  - apply Nat.ltb_ge in E. apply nth_error_None in E. rewrite E. reflexivity.
Qed.
Lemma shell_perm N L axes lo hi l k : shell N L axes lo hi l -> shell N L axes lo hi k -> Permutation l k.
Proof. intros [A1 A2] [B1 B2]. apply NoDup_Permutation; [exact A1|exact B1|]. intros x. rewrite A2, B2. reflexivity. Qed.
Lemma mean_of_perm h l k : Permutation l k -> mean_of h l = mean_of h k.
Proof.
  intros P. rewrite !mean_ratio, (Permutation_length P). destruct (ceq0 _); [reflexivity|]. f_equal. f_equal. apply rsum_perm, Permutation_map, P.
Qed.
Lemma mean_of_sum h l p : mean_of h l = Some p -> INR (length l) * p = rsum (map h l).
Proof.
  rewrite mean_ratio. unfold ceq0. destruct (Req_EM_T _ 0) as [|NZ]; [discriminate|]. intros E. assert (E2 : rsum (map h l) / INR (length l) = p) by congruence. rewrite <- E2. field. exact NZ.
Qed.
Lemma variance_bound N L axes dk kmin f r : mesh_size N -> positive3 L -> some_axes axes -> even_last N axes -> (forall d, dk = Some d -> 0 < d) ->
  ProjectedFFTPower N L (Sequence axes) dk kmin f None = Ok r ->
  rsum (map (fun b => times_modes (b_modes b) (b_power b)) (bins r))
  <= area L axes * (average N (fun x => flattened N axes f x * flattened N axes f x) - average N (flattened N axes f) * average N (flattened N axes f)).
Proof.
  intros HN HP HA HE HD HR. rewrite (init_run N L axes dk kmin f None HP HA HD) in HR. assert (WP := width_pos L dk HP HD).
  destruct (run_bins N L axes f f (width L dk) kmin r HN HP HA HE WP HR) as (EE & EB & HB).
  refine (Rle_trans _ _ _ _ (power_variance N L axes f HN HP HA)).
  refine (Rle_trans _ _ _ _ (bins_disjoint (fun c => fst (power N L f f (lifted axes c)) / depth L axes) (fun c => digitize (edges r) (kmag N L axes c)) (length (bins r)) (grid (sizes N axes)) _)).
  - rewrite rsum_nth. apply Req_le. apply rsum_ext'. intros i I. apply in_seq in I. destruct (nth_error (edges r) i) as [lo|] eqn:A; [|apply nth_error_None in A; lia].
    destruct (nth_error (edges r) (S i)) as [hi|] eqn:B; [|apply nth_error_None in B; lia]. destruct (HB i lo hi A B) as (l & b & S1 & S2 & S3 & _ & S5). rewrite S2.
    assert (RI : rising (edges r)) by (rewrite EE; apply arange_rising; exact WP).
    assert (PM := shell_perm _ _ _ _ _ _ _ S1 (members_shell N L axes (edges r) i lo hi HN HA RI A B)). unfold members in PM.
    rewrite <- (map_map (lifted axes) (fun m => fst (power N L f f m) / depth L axes)). rewrite <- (rsum_perm _ _ (Permutation_map (fun m => fst (power N L f f m) / depth L axes) PM)).
    unfold times_modes. destruct (b_power b) as [p|]; [|subst l; reflexivity]. rewrite S3. apply mean_of_sum, S5.
  - intros c _. apply Rmult_le_pos; [apply auto_real; exact HP|]. apply Rlt_le, Rinv_0_lt_compat, depth_pos; assumption.
Qed.
Lemma swap_axes a b : some_axes [a; b] -> some_axes [b; a].
Proof.
  intros (ND & H3 & HL). split; [|split; [intros c [C|[C|[]]]; apply H3; cbn [In]; auto|exact HL]]. apply (Permutation_NoDup (perm_swap b a [])). exact ND.
Qed.
Lemma swap_nyquist N L a b K : nyquist N L [a; b] K -> nyquist N L [b; a] K.
Proof.
  intros (c & d & C & D & H & E). exists c, d. split; [destruct C as [C|[C|[]]]; cbn [In]; auto|]. split; [destruct D as [D|[D|[]]]; cbn [In]; auto|]. split; [|exact E].
  intros x [X|[X|[]]]; apply H; cbn [In]; auto.
Qed.
Lemma swap_shell N L a b lo hi l : shell N L [a; b] lo hi l -> shell N L [b; a] lo hi l.
Proof.
  intros [A1 A2]. split; [exact A1|]. intros m. rewrite A2. unfold flat. split; intros (X & Y & Z); (split; [exact X|]; split; [|exact Z]); intros c C NC; apply Y; try exact C; intros [I|[I|[]]]; apply NC; cbn [In]; auto.
Qed.
Lemma swap_depth L a b : depth L [a; b] = depth L [b; a].
Proof. unfold depth. cbn [fold_right existsb]. rewrite !orb_false_r. rewrite !(orb_comm (Nat.eqb _ a)). reflexivity. Qed.
Lemma order_axes N L a b dk kmin K f g : mesh_size N -> positive3 L -> some_axes [a; b] -> even_last N [a; b] -> even_last N [b; a] -> (forall d, dk = Some d -> 0 < d) ->
  nyquist N L [a; b] K -> kmin < K + width L dk / 2 ->
  exists r s, ProjectedFFTPower N L (Sequence [a; b]) dk kmin f g = Ok r /\ ProjectedFFTPower N L (Sequence [b; a]) dk kmin f g = Ok s /\ edges r = edges s /\
    map b_k (bins r) = map b_k (bins s) /\ map b_modes (bins r) = map b_modes (bins s) /\ map (fun x => option_map fst (b_power x)) (bins r) = map (fun x => option_map fst (b_power x)) (bins s).
Proof.
  intros HN HP HA HE HE' HD HK HL.
  destruct (slices N L [a; b] dk kmin K f g HN HP HA HE HD HK HL) as (r & n & R1 & R2 & R3 & R4 & R5 & R6).
  destruct (slices N L [b; a] dk kmin K f g HN HP (swap_axes a b HA) HE' HD (swap_nyquist N L a b K HK) HL) as (s & n' & Q1 & Q2 & Q3 & Q4 & Q5 & Q6).
  assert (WP := width_pos L dk HP HD).
  assert (EN : n' = n). { assert (A : INR n < INR (S n')) by (apply (Rmult_lt_reg_r (width L dk)); lra). assert (B : INR n' < INR (S n)) by (apply (Rmult_lt_reg_r (width L dk)); lra). apply INR_lt in A. apply INR_lt in B. lia. }
  rewrite EN in Q2, Q3, Q4, Q6. exists r, s. split; [exact R1|]. split; [exact Q1|]. split.
  - apply nth_error_ext. intros i. destruct (lt_dec i (S n)) as [I|I].
    + destruct (nth_error (edges r) i) as [x|] eqn:X; [|apply nth_error_None in X; lia]. destruct (nth_error (edges s) i) as [y|] eqn:Y; [|apply nth_error_None in Y; lia].
      rewrite (R5 i x X), (Q5 i y Y). reflexivity.
    + rewrite (proj2 (nth_error_None _ _)) by lia. rewrite (proj2 (nth_error_None _ _)) by lia. reflexivity.
  - assert (EACH : forall i, (i < n)%nat -> exists x y, nth_error (bins r) i = Some x /\ nth_error (bins s) i = Some y /\ b_k x = b_k y /\ b_modes x = b_modes y /\ option_map fst (b_power x) = option_map fst (b_power y)).
    { intros i I. destruct (R6 i I) as (l & x & A1 & A2 & A3 & A4 & A5). destruct (Q6 i I) as (k & y & B1 & B2 & B3 & B4 & B5).
      assert (PM := shell_perm _ _ _ _ _ _ _ (swap_shell _ _ _ _ _ _ _ A1) B1). exists x, y. split; [exact A2|]. split; [exact B2|].
      split; [rewrite A4, B4; apply mean_of_perm, PM|]. split; [rewrite A3, B3, (Permutation_length PM); reflexivity|].
      rewrite (swap_depth L b a) in B5. destruct (b_power x) as [p|], (b_power y) as [q|].
      - destruct A5 as [A5 _]. destruct B5 as [B5 _]. rewrite (mean_of_perm _ l k PM) in A5. cbn [option_map]. congruence.
      - subst k. apply Permutation_sym in PM. apply Permutation_nil in PM. subst l. destruct A5 as [A5 _]. discriminate A5.
      - subst l. apply Permutation_nil in PM. subst k. destruct B5 as [B5 _]. discriminate B5.
      - reflexivity. }
    assert (MAP : forall (B : Type) (h : bin -> B), (forall i x y, (i < n)%nat -> nth_error (bins r) i = Some x -> nth_error (bins s) i = Some y -> h x = h y) -> map h (bins r) = map h (bins s)).
    { intros B h H. apply nth_error_ext. intros i. rewrite !nth_error_map'. destruct (lt_dec i n) as [I|I].
      - destruct (nth_error (bins r) i) as [x|] eqn:X; [|apply nth_error_None in X; lia]. destruct (nth_error (bins s) i) as [y|] eqn:Y; [|apply nth_error_None in Y; lia]. cbn [option_map]. f_equal. exact (H i x y I X Y).
      - rewrite (proj2 (nth_error_None (bins r) i)) by lia. rewrite (proj2 (nth_error_None (bins s) i)) by lia. reflexivity. }
    split; [|split]; apply MAP; intros i x y I X Y; destruct (EACH i I) as (x' & y' & X' & Y' & E1 & E2 & E3); rewrite X in X'; rewrite Y in Y'; congruence.
Qed.
