(* Lemmas on arrays, and bin_ndarray. *)
From Verif Require Import Base BaseProofs Num BinModel BinSpec.
Local Open Scope nat_scope.

Lemma valid_length s idx : valid s idx -> length idx = length s.
Proof. induction 1; cbn; congruence. Qed.
Lemma ravel_lt s : forall idx, valid s idx -> ravel s idx < prod s.
Proof.
  induction s as [|n s IH]; intros idx H; inversion H as [|i ? idx' ? Hi HV]; subst; cbn [ravel prod fold_right]; [lia|].
  specialize (IH idx' HV). fold (prod s). nia.
Qed.
Lemma unravel_ravel s : forall idx, valid s idx -> unravel s (ravel s idx) = idx.
Proof.
  induction s as [|n s IH]; intros idx H; inversion H as [|i ? idx' ? Hi HV]; subst; cbn [ravel unravel]; [reflexivity|].
  pose proof (ravel_lt s idx' HV) as L. rewrite Nat.div_add_l by lia. rewrite Nat.div_small by exact L.
  rewrite (Nat.add_comm (i * prod s)), Nat.mod_add by lia. rewrite Nat.mod_small by exact L. rewrite IH by exact HV. f_equal. lia.
Qed.

Fixpoint merge (rs t : list nat) : list nat :=
  match rs, t with r :: rs, i :: j :: t => i * r + j :: merge rs t | _, _ => [] end.
Definition mulz (ds rs : list nat) : list nat := map (fun p => fst p * snd p) (combine ds rs).

Lemma flattened_cons d ds r rs : flattened (d :: ds) (r :: rs) = d :: r :: flattened ds rs.
Proof. reflexivity. Qed.
Lemma prod_flattened ds : forall rs, prod (flattened ds rs) = prod (mulz ds rs).
Proof.
  induction ds as [|d ds IH]; intros [|r rs]; try reflexivity. rewrite flattened_cons. unfold mulz. cbn [combine map fst snd prod fold_right].
  fold (prod (flattened ds rs)). rewrite IH. unfold mulz. unfold prod. lia.
Qed.
Lemma ravel_flattened ds : forall rs t, length t = 2 * length ds -> length rs = length ds ->
  ravel (flattened ds rs) t = ravel (mulz ds rs) (merge rs t).
Proof.
  induction ds as [|d ds IH]; intros [|r rs] t HT HR; try discriminate; [reflexivity|]. destruct t as [|i [|j t]]; cbn in HT; try lia.
  rewrite flattened_cons. cbn [ravel merge]. unfold mulz. cbn [combine map ravel fst snd]. rewrite IH by (cbn in HR; lia). fold (mulz ds rs).
  cbn [prod fold_right]. fold (prod (flattened ds rs)). rewrite prod_flattened. nia.
Qed.

(* nested application of an operation over blocks *)
Fixpoint nest {V} (op : list V -> V) (rs idx : list nat) (g : list nat -> V) : V :=
  match rs, idx with
  | r :: rs, i :: idx => op (map (fun j => nest op rs idx (fun t => g (i :: j :: t))) (seq 0 r))
  | _, _ => g []
  end.
Fixpoint blocks {V} (op : list V -> V) (rs idx : list nat) (f : list nat -> V) : V :=
  match rs, idx with
  | r :: rs, i :: idx => op (map (fun j => blocks op rs idx (fun t => f (i * r + j :: t))) (seq 0 r))
  | _, _ => f []
  end.
Lemma nest_ext {V} (op : list V -> V) rs : forall idx g g', (forall t, g t = g' t) -> nest op rs idx g = nest op rs idx g'.
Proof.
  induction rs as [|r rs IH]; intros [|i idx] g g' H; cbn [nest]; auto. f_equal. apply map_ext. intros j. apply IH. intros t. apply H.
Qed.
Lemma nest_blocks {V} (op : list V -> V) rs : forall ds idx g f, length rs = length ds -> valid ds idx ->
  (forall t, length t = 2 * length ds -> valid (mulz ds rs) (merge rs t) -> g t = f (merge rs t)) ->
  nest op rs idx g = blocks op rs idx f.
Proof.
  induction rs as [|r rs IH]; intros [|d ds] idx g f HL HV H; try discriminate; inversion HV as [|i ? idx' ? Hi HV']; subst; cbn [nest blocks].
  - apply H; [reflexivity|constructor].
  - f_equal. apply map_ext_in. intros j Hj. apply in_seq in Hj. apply (IH ds); [cbn in HL; lia|exact HV'|]. intros t HT HM. apply H.
    + cbn. lia.
    + cbn [merge]. unfold mulz. cbn [combine map fst snd]. constructor; [nia|exact HM].
Qed.
Lemma blocks_ext {V} (op : list V -> V) rs : forall ds idx f f', length rs = length ds -> valid ds idx ->
  (forall t, valid (mulz ds rs) t -> f t = f' t) -> blocks op rs idx f = blocks op rs idx f'.
Proof.
  induction rs as [|r rs IH]; intros [|d ds] idx f f' HL HV H; try discriminate; inversion HV as [|i ? idx' ? Hi HV']; subst; cbn [blocks].
  - apply H. constructor.
  - f_equal. apply map_ext_in. intros j Hj. apply in_seq in Hj. apply (IH ds); [cbn in HL; lia|exact HV'|]. intros t HT. apply H.
    unfold mulz. cbn [combine map fst snd]. constructor; [nia|exact HT].
Qed.

Lemma insert_at_app {A} (a b : list A) x p : p = length a -> insert_at p x (a ++ b) = a ++ x :: b.
Proof. intros ->. induction a as [|y a IH]; cbn; [destruct b; reflexivity|]. rewrite IH. reflexivity. Qed.
Lemma remove_at_app {A} (a b : list A) x p : p = length a -> remove_at p (a ++ x :: b) = a ++ b.
Proof. intros ->. induction a as [|y a IH]; cbn; [reflexivity|]. rewrite IH. reflexivity. Qed.
Lemma flattened_app a b c d : length a = length b -> flattened (a ++ c) (b ++ d) = flattened a b ++ flattened c d.
Proof.
  revert b. induction a as [|x a IH]; intros [|y b] H; try discriminate; [reflexivity|]. cbn [app]. rewrite !flattened_cons, IH by (cbn in H; lia). reflexivity.
Qed.
Lemma flattened_length a : forall b, length a = length b -> length (flattened a b) = 2 * length a.
Proof. induction a as [|x a IH]; intros [|y b] H; try discriminate; [reflexivity|]. rewrite flattened_cons. cbn [length]. rewrite IH by (cbn in H; lia). lia. Qed.
Lemma snoc_split {A} (l : list A) n : length l = S n -> exists l' x, l = l' ++ [x] /\ length l' = n.
Proof.
  intros H. destruct (exists_last (l := l)) as (l' & x & E); [destruct l; [discriminate|discriminate]|]. exists l', x. split; [exact E|].
  rewrite E, app_length in H. cbn in H. lia.
Qed.

Lemma bin_fold {V} (op : list V -> V) (G : list nat -> V) : forall n dP rP dQ rQ (b : arr V), length dP = n -> length rP = n -> length dQ = length rQ ->
  shape b = flattened dP rP ++ dQ ->
  (forall pre idx, length pre = 2 * n -> length idx = length dQ -> cell b (pre ++ idx) = nest op rQ idx (fun t => G (pre ++ t))) ->
  let b' := fold_left (fun b i => reduce op (length (shape b) - (i + 1)) b) (seq (length dQ) n) b in
  shape b' = dP ++ dQ /\
  forall idx, length idx = n + length dQ -> cell b' idx = nest op (rP ++ rQ) idx G.
Proof.
  induction n as [|n IH]; intros dP rP dQ rQ b HP HR HQ HS HC.
  - destruct dP, rP; try discriminate. cbn [seq fold_left app]. split; [exact HS|]. intros idx HI. cbn in HI. apply (HC [] idx); [reflexivity|exact HI].
  - destruct (snoc_split dP n HP) as (dP' & d & -> & HP'). destruct (snoc_split rP n HR) as (rP' & r & -> & HR').
    cbn [seq fold_left]. rewrite flattened_app in HS by lia. change (flattened [d] [r]) with [d; r] in HS.
    pose proof (flattened_length dP' rP' ltac:(lia)) as HF.
    set (p := 2 * n + 1).
    assert (EP : length (shape b) - (length dQ + 1) = p) by (rewrite HS, !app_length; cbn; lia). rewrite EP.
    destruct (IH dP' rP' (d :: dQ) (r :: rQ) (reduce op p b)) as [I1 I2]; try assumption.
    + cbn. lia.
    + cbn [reduce shape]. rewrite HS, <- !app_assoc. cbn [app].
      change (d :: r :: dQ) with ([d] ++ r :: dQ). rewrite app_assoc. rewrite remove_at_app by (rewrite app_length; cbn; lia). rewrite <- app_assoc. reflexivity.
    + intros pre idx Hpre Hidx. destruct idx as [|i idx]; [discriminate|]. cbn [reduce cell nest].
      assert (EN : nth p (shape b) 0 = r).
      { rewrite HS, <- app_assoc. rewrite app_nth2 by lia. replace (p - length (flattened dP' rP')) with 1 by lia. reflexivity. }
      rewrite EN. f_equal. apply map_ext. intros j.
      change (pre ++ i :: idx) with (pre ++ [i] ++ idx). rewrite app_assoc. rewrite insert_at_app by (rewrite app_length; cbn; lia).
      change (j :: idx) with ([j] ++ idx). rewrite app_assoc. rewrite HC by (rewrite ?app_length; cbn in *; lia).
      apply nest_ext. intros t. rewrite <- !app_assoc. reflexivity.
    + cbn [length] in I1, I2. split; [rewrite I1, <- app_assoc; reflexivity|]. intros idx HI. rewrite I2 by (cbn in *; lia). rewrite <- app_assoc. reflexivity.
Qed.

Definition ratios (new sh : list nat) : list nat := map (fun p => snd p / fst p) (combine new sh).
Lemma bin_ndarray_ok {V} (op : list V -> V) (a : arr V) new : length (shape a) = length new ->
  Forall2 (fun d c => 0 < d /\ c mod d = 0) new (shape a) ->
  exists b, bin_ndarray op a new = Ok b /\ shape b = new /\
    mulz new (ratios new (shape a)) = shape a /\ length (ratios new (shape a)) = length new /\
    forall idx, valid new idx -> cell b idx = blocks op (ratios new (shape a)) idx (cell a).
Proof.
  intros HL HF. unfold bin_ndarray. rewrite HL, Nat.eqb_refl. cbn [negb].
  assert (existsb (fun p => negb (fst p mod snd p =? 0)) (filter (fun p => negb (snd p =? 0)) (combine (shape a) new)) = false) as ->.
  { apply not_true_is_false. intros H. apply existsb_exists in H. destruct H as ([c d] & HI & HN). apply filter_In in HI. destruct HI as [HI _].
    clear HL. revert HI. induction HF as [|d' c' ds cs [H1 H2] HF IH]; cbn [combine]; [intros []|]. intros [E|E]; [|auto]. injection E as -> ->. cbn in HN. rewrite H2 in HN. discriminate. }
  assert (existsb (fun d => d =? 0) new = false) as ->.
  { apply not_true_is_false. intros H. apply existsb_exists in H. destruct H as (d & HI & HN). apply Nat.eqb_eq in HN. subst d. clear HL. 
    induction HF as [|d' c' ds cs [H1 H2] HF IH]; [exact HI|]. destruct HI as [->|HI]; [lia|auto]. }
  fold (ratios new (shape a)). set (rs := ratios new (shape a)).
  assert (HM : mulz new rs = shape a /\ length rs = length new).
  { unfold rs, ratios. split; [|rewrite map_length, combine_length; lia]. clear HL. unfold mulz. induction HF as [|d c ds cs [H1 H2] HF IH]; [reflexivity|].
    cbn [combine map fst snd]. rewrite IH. f_equal. pose proof (Nat.div_mod c d ltac:(lia)). lia. }
  destruct HM as [HM HR].
  unfold reshape. rewrite prod_flattened, HM, Nat.eqb_refl. cbn [rbind].
  set (b0 := {| shape := flattened new rs; cell := fun idx => cell a (unravel (shape a) (ravel (flattened new rs) idx)) |}).
  destruct (bin_fold op (cell b0) (length new) new rs [] [] b0 eq_refl HR eq_refl) as [I1 I2].
  - cbn. rewrite app_nil_r. reflexivity.
  - intros pre idx Hp Hi. destruct idx; [|discriminate]. cbn [nest]. reflexivity.
  - cbn [length] in I1, I2. rewrite app_nil_r in I1, I2. eexists. split; [reflexivity|]. split; [exact I1|]. split; [reflexivity|]. split; [exact HR|].
    intros idx HV. rewrite I2 by (rewrite Nat.add_0_r; apply (valid_length _ _ HV)). apply (nest_blocks op rs new); [exact HR|exact HV|].
    intros t HT HV'. cbn [b0 cell]. rewrite ravel_flattened by lia. rewrite HM in *. rewrite unravel_ravel by exact HV'. reflexivity.
Qed.

(* ---- sums ---- *)
Fixpoint bcells (rs idx : list nat) : list (list nat) :=
  match rs, idx with
  | r :: rs, i :: idx => concat (map (fun j => map (cons (i * r + j)) (bcells rs idx)) (seq 0 r))
  | _, _ => [[]]
  end.
Definition fsum (f : list nat -> val) (l : list (list nat)) : Qc := qsum (map (fun t => fin (f t)) l).
Lemma fsum_concat {A} (f : list nat -> val) (g : A -> list (list nat)) l : fsum f (concat (map g l)) = qsum (map (fun a => fsum f (g a)) l).
Proof. unfold fsum. rewrite concat_map, qsum_concat, !map_map. reflexivity. Qed.
Lemma fsum_cons f i l : fsum f (map (cons i) l) = fsum (fun t => f (i :: t)) l.
Proof. unfold fsum. rewrite map_map. reflexivity. Qed.
Lemma blocks_nansum rs : forall idx f, length idx = length rs -> 
  fin (blocks nansum rs idx f) = fsum f (bcells rs idx) /\ (rs <> [] -> finite (blocks nansum rs idx f) = true).
Proof.
  induction rs as [|r rs IH]; intros [|i idx] f HL; try discriminate; cbn [blocks bcells].
  - split; [unfold fsum; cbn [map]; rewrite qsum_cons, qsum_nil; ring|congruence].
  - split; [|reflexivity]. unfold nansum at 1. cbn [fin]. rewrite fsum_concat, map_map. apply qsum_map_ext. intros j _. rewrite fsum_cons. apply IH. cbn in HL. lia.
Qed.
Lemma seq_blocks m : forall d, seq 0 (d * m) = concat (map (fun i => map (fun j => i * m + j) (seq 0 m)) (seq 0 d)).
Proof.
  induction d as [|d IH]; [reflexivity|]. replace (S d * m) with (d * m + m) by lia. rewrite seq_app, IH. rewrite seq_S, map_app, concat_app. cbn [map concat].
  rewrite app_nil_r. f_equal. cbn [Nat.add]. rewrite <- (map_id (seq (d * m) m)). 
  rewrite <- (Nat.add_0_r (d * m)) at 1. rewrite map_id. generalize (d * m) as c. generalize 0 as k. clear. induction m as [|m IH]; intros k c; [reflexivity|].
  cbn [seq map]. f_equal. rewrite <- (IH (S k) c). f_equal. lia.
Qed.
Lemma fsum_blocks ds : forall rs f, length rs = length ds ->
  qsum (map (fun idx => fsum f (bcells rs idx)) (grid ds)) = fsum f (grid (mulz ds rs)).
Proof.
  induction ds as [|d ds IH]; intros [|r rs] f HL; try discriminate.
  - cbn. unfold fsum. cbn. ring.
  - unfold mulz. cbn [combine map fst snd grid]. fold (mulz ds rs). rewrite fsum_concat. rewrite (seq_blocks r d).
    rewrite concat_map, qsum_concat, !map_map. rewrite concat_map, qsum_concat, !map_map. apply qsum_map_ext. intros i _.
    rewrite !map_map. cbn [bcells].
    transitivity (qsum (map (fun t => qsum (map (fun j => fsum (fun u => f (i * r + j :: u)) (bcells rs t)) (seq 0 r))) (grid ds))).
    + apply qsum_map_ext. intros t _. rewrite fsum_concat. apply qsum_map_ext. intros j _. apply fsum_cons.
    + rewrite qsum_swap. apply qsum_map_ext. intros j _. rewrite IH by (cbn in HL; lia). rewrite fsum_cons. reflexivity.
Qed.
Lemma grid_valid s : forall idx, In idx (grid s) <-> valid s idx.
Proof.
  induction s as [|n s IH]; intros idx; cbn [grid].
  - split; [intros [<-|[]]; constructor|intros H; inversion H; left; reflexivity].
  - rewrite in_concat. split.
    + intros (l & Hl & Hi). apply in_map_iff in Hl. destruct Hl as (i & <- & Hs). apply in_map_iff in Hi. destruct Hi as (t & <- & Ht). apply in_seq in Hs. constructor; [lia|apply IH, Ht].
    + intros H. inversion H as [|i ? t ? Hi HV]; subst. exists (map (cons i) (grid s)). split; [apply in_map_iff; exists i; split; [reflexivity|apply in_seq; lia]|]. apply in_map, IH, HV.
Qed.

(* summing conserves the total, for every number of axes *)
Lemma bin_total a new : length (shape a) = length new -> new <> [] -> Forall2 (fun d c => 0 < d /\ c mod d = 0) new (shape a) ->
  exists b, bin_ndarray nansum a new = Ok b /\ shape b = new /\ total b = total a /\ (forall idx, valid new idx -> cell b idx <> None).
Proof.
  intros HL HN HF. destruct (bin_ndarray_ok nansum a new HL HF) as (b & E & S & M & R & C). exists b. split; [exact E|]. split; [exact S|]. split.
  - unfold total. rewrite S. transitivity (qsum (map (fun idx => fsum (cell a) (bcells (ratios new (shape a)) idx)) (grid new))).
    + apply qsum_map_ext. intros idx HI. apply grid_valid in HI. change (fin (cell b idx) = fsum (cell a) (bcells (ratios new (shape a)) idx)).
      rewrite C by exact HI. apply blocks_nansum. rewrite (valid_length _ _ HI). congruence.
    + rewrite fsum_blocks by exact R. rewrite M. reflexivity.
  - intros idx HV. rewrite C by exact HV. destruct (blocks_nansum (ratios new (shape a)) idx (cell a)) as [_ F].
    + rewrite (valid_length _ _ HV). congruence.
    + intros HX. rewrite HX in F. cbn in F. assert (false = true); [|discriminate]. apply F.
      destruct (ratios new (shape a)); [|discriminate]. destruct new; [congruence|discriminate].
Qed.

(* ---- one axis ---- *)
Fixpoint one_axis (i m : nat) (rs : list nat) : Prop :=
  match rs, i with
  | [], _ => False
  | r :: rs, O => r = m /\ Forall (eq 1) rs
  | r :: rs, S i => r = 1 /\ one_axis i m rs
  end.
Lemma fine_0 m i idx : fine 0 m (i :: idx) = map (fun j => i * m + j :: idx) (seq 0 m).
Proof. reflexivity. Qed.
Lemma fine_S i m k idx : fine (S i) m (k :: idx) = map (cons k) (fine i m idx).
Proof. unfold fine. rewrite map_map. reflexivity. Qed.

Lemma blocks_ones {V} (op : list V -> V) (R : V -> V -> Prop) : (forall x, R x x) -> (forall x y, R x y -> R x (op [y])) ->
  forall rs idx f, Forall (eq 1) rs -> length idx = length rs -> R (f idx) (blocks op rs idx f).
Proof.
  intros R0 R1. induction rs as [|r rs IH]; intros [|i idx] f HF HL; try discriminate; cbn [blocks]; [apply R0|].
  inversion HF as [|? ? <- HF']; subst. cbn [seq map]. apply R1. replace (i * 1 + 0) with i by lia. apply (IH idx (fun t => f (i :: t))); [exact HF'|cbn in HL; lia].
Qed.
Lemma blocks_axis {V} (op : list V -> V) (R : V -> V -> Prop) (Q : list V -> V -> Prop) :
  (forall x, R x x) -> (forall x y, R x y -> R x (op [y])) ->
  (forall l l', Forall2 R l l' -> Q l (op l')) -> (forall l x, Q l x -> Q l (op [x])) ->
  forall rs i m idx f, one_axis i m rs -> length idx = length rs -> Q (map f (fine i m idx)) (blocks op rs idx f).
Proof.
  intros R0 R1 Q0 Q1. induction rs as [|r rs IH]; intros i m [|k idx] f HO HL; try discriminate; [destruct i; destruct HO|].
  cbn [blocks]. destruct i as [|i]; destruct HO as [-> HO].
  - rewrite fine_0, map_map. apply Q0. generalize (seq 0 m). intros l. induction l as [|j l IHl]; cbn [map]; constructor; auto.
    apply (blocks_ones op R R0 R1 rs idx (fun t => f (k * m + j :: t))); [exact HO|cbn in HL; lia].
  - cbn [seq map]. apply Q1. rewrite fine_S, map_map. replace (k * 1 + 0) with k by lia. apply (IH i m idx (fun t => f (k :: t))); [exact HO|cbn in HL; lia].
Qed.

Lemma finite_values_filter l : finite_values l = map fin (filter finite l).
Proof. induction l as [|[x|] l IH]; cbn; congruence. Qed.
Lemma sum_of_fin l : sum_of l = qsum (map fin l).
Proof.
  unfold sum_of. induction l as [|[x|] l IH]; cbn [finite_values map]; [reflexivity| |]; rewrite ?qsum_cons, IH; [reflexivity|]. cbn [fin]. ring.
Qed.
Lemma nanmean_1 x : nanmean [x] = x.
Proof.
  destruct x as [x|]; [|reflexivity]. unfold nanmean. cbn [filter finite map fin length]. rewrite qsum_cons, qsum_nil. change (nq 1) with 1%Qc. f_equal. field. discriminate.
Qed.
Lemma nq_neq0 n : n <> 0 -> nq n <> 0%Qc.
Proof. intros H E. apply H. unfold nq in E. rewrite <- zq_0 in E. apply zq_inj in E. lia. Qed.
Lemma nanmean_spec l : mean_of l (nanmean l).
Proof.
  unfold mean_of, sum_of. rewrite finite_values_filter. unfold nanmean. destruct (filter finite l) as [|x f] eqn:E; [left; split; reflexivity|right].
  split; [discriminate|]. eexists. split; [reflexivity|]. rewrite map_length. field. apply nq_neq0. discriminate.
Qed.
Lemma axis_sum i m rs idx f : one_axis i m rs -> length idx = length rs -> blocks nansum rs idx f = Some (sum_of (map f (fine i m idx))).
Proof.
  apply (blocks_axis nansum (fun x y => fin x = fin y) (fun l v => v = Some (sum_of l))); clear.
  - reflexivity.
  - intros x y ->. cbn [nansum map fin]. rewrite qsum_cons, qsum_nil. ring.
  - intros l l' H. unfold nansum. f_equal. rewrite sum_of_fin. f_equal. induction H; cbn; congruence.
  - intros l x ->. cbn [nansum map fin]. unfold nansum. cbn [map fin]. rewrite qsum_cons, qsum_nil. f_equal. ring.
Qed.
Lemma axis_mean i m rs idx f : one_axis i m rs -> length idx = length rs -> mean_of (map f (fine i m idx)) (blocks nanmean rs idx f).
Proof.
  apply (blocks_axis nanmean eq mean_of).
  - reflexivity.
  - intros x y ->. symmetry. apply nanmean_1.
  - intros l l' H. assert (l = l') as <- by (induction H; congruence). apply nanmean_spec.
  - intros l x H. rewrite nanmean_1. exact H.
Qed.

Definition contrib (xw : val * val) : Qc := fin (vmul (fst xw) (snd xw)).
Definition wrel (a b : val * val) : Prop := snd a = snd b /\ contrib a = contrib b.
Definition wres (l : list (val * val)) (v : val * val) : Prop :=
  v = (vdiv (Some (qsum (map contrib l))) (plainsum (map snd l)), plainsum (map snd l)).
Lemma plainsum_1 w : plainsum [w] = w.
Proof. destruct w as [w|]; [|reflexivity]. unfold plainsum. cbn [forallb finite andb map fin]. rewrite qsum_cons, qsum_nil. f_equal. ring. Qed.
Lemma wop_eq l : wop l = (vdiv (Some (qsum (map contrib l))) (plainsum (map snd l)), plainsum (map snd l)).
Proof. unfold wop, nansum. rewrite map_map. reflexivity. Qed.
Lemma contrib_0 x : contrib (x, Some 0%Qc) = 0%Qc.
Proof. unfold contrib. destruct x; cbn; [ring|reflexivity]. Qed.
Lemma wop_1 a b : wrel a b -> wrel a (wop [b]).
Proof.
  destruct a as [x w], b as [y w']. unfold wrel. cbn [fst snd]. intros [-> H]. rewrite wop_eq. cbn [map snd]. rewrite plainsum_1. split; [reflexivity|]. rewrite H.
  rewrite qsum_cons, qsum_nil, Qcplus_0_r. destruct w' as [w|]; [|destruct y; reflexivity].
  destruct (Qc_eq_dec w 0%Qc) as [->|N]; [rewrite !contrib_0; reflexivity|]. unfold contrib at 2. cbn [vdiv]. destruct (Qc_eq_dec w 0%Qc); [contradiction|]. cbn [fst snd vmul fin]. field. exact N.
Qed.
Lemma axis_wmean i m rs idx f : one_axis i m rs -> length idx = length rs -> wres (map f (fine i m idx)) (blocks wop rs idx f).
Proof.
  apply (blocks_axis wop wrel wres).
  - intros x. split; reflexivity.
  - intros x y. apply wop_1.
  - intros l l' H. unfold wres. rewrite wop_eq. assert (map contrib l = map contrib l' /\ map snd l = map snd l') as [-> ->]; [|reflexivity].
    induction H as [|a b l l' [H1 H2] H [IH1 IH2]]; cbn [map]; split; congruence.
  - intros l x ->. unfold wres. rewrite wop_eq. cbn [map snd]. rewrite plainsum_1. f_equal. rewrite qsum_cons, qsum_nil, Qcplus_0_r.
    destruct (plainsum (map snd l)) as [w|]; [|reflexivity].
    destruct (Qc_eq_dec w 0%Qc) as [->|N].
    + rewrite contrib_0. cbn [vdiv]. reflexivity.
    + unfold contrib at 1. cbn [vdiv]. destruct (Qc_eq_dec w 0%Qc); [contradiction|]. cbn [fst snd vmul fin]. f_equal. field. exact N.
Qed.
Lemma wres_wmean l v : wres (map (fun xw => (fst xw, Some (snd xw))) l) v -> wmean_of l (fst v).
Proof.
  intros ->. cbn [fst]. rewrite !map_map. cbn [snd]. unfold wmean_of.
  match goal with |- context [plainsum ?y] => assert (plainsum y = Some (qsum (map snd l))) as -> end.
  { unfold plainsum. rewrite (proj2 (forallb_forall _ _)); [rewrite map_map; reflexivity|]. intros x Hx. apply in_map_iff in Hx. destruct Hx as (y & <- & _). reflexivity. }
  match goal with |- context [vdiv (Some (qsum (map ?g l)))] => assert (qsum (map g l) = wsum_of l) as -> end.
  { unfold wsum_of. apply qsum_map_ext. intros [[x|] w] _; reflexivity. }
  cbn [vdiv]. destruct (Qc_eq_dec (qsum (map snd l)) 0%Qc) as [E|E]; [left; auto|right]. split; [exact E|]. eexists. split; [reflexivity|]. field. exact E.
Qed.
