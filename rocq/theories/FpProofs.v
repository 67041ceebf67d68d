From Coq Require Import Reals List Bool String Lia Lra FinFun.
From Verif Require Import Base UniqModel UniqProofs UniqMain FpModel.
Import ListNotations.
Local Open Scope R_scope.
Local Notation length := List.length.
Local Notation concat := List.concat.

Lemma reqb_iff x y : reqb x y = true <-> x = y.
Proof. unfold reqb. destruct (Req_EM_T x y); split; intros; congruence. Qed.
Lemma alleq_iff {X} (eqb : X -> X -> bool) (H : forall x y, eqb x y = true <-> x = y) l : forall m, alleq eqb l m = true <-> l = m.
Proof.
  induction l as [|a l IH]; intros [|b m]; cbn [alleq]; split; intros E; try congruence; try reflexivity.
  - apply andb_prop in E as [E1 E2]. apply H in E1. apply IH in E2. congruence.
  - injection E as -> ->. rewrite (proj2 (H b b) eq_refl), (proj2 (IH m) eq_refl). reflexivity.
Qed.
(* slabs *)
Lemma put_slab_length i s l : length (put_slab i s l) = length l.
Proof.
  unfold put_slab. rewrite app_length, firstn_length. pose proof (skipn_length i l) as K. destruct (skipn i l) as [|x r]; cbn [length] in *; lia.
Qed.
Lemma firstn_nth {X} (l : list X) : forall i j, (j < i)%nat -> nth_error (firstn i l) j = nth_error l j.
Proof. induction l as [|x l IH]; intros [|i] [|j] H; try lia; try reflexivity. apply (IH i j). lia. Qed.
Lemma skipn_nth {X} (l : list X) : forall i j, nth_error (skipn i l) j = nth_error l (i + j).
Proof. induction l as [|x l IH]; intros [|i] j; try reflexivity; [destruct j; reflexivity|apply (IH i j)]. Qed.
Lemma put_slab_nth i s l j : nth_error (put_slab i s l) j = if (j =? i)%nat then match nth_error l i with Some _ => Some s | None => None end else nth_error l j.
Proof.
  unfold put_slab. destruct (Nat.lt_ge_cases i (length l)) as [L|L].
  - assert (F : length (firstn i l) = i) by (rewrite firstn_length; lia). pose proof (skipn_nth l i) as K. destruct (skipn i l) as [|x r] eqn:E; [apply (f_equal (@length _)) in E; rewrite skipn_length in E; cbn in E; lia|].
    assert (Hi : nth_error l i = Some x) by (specialize (K 0%nat); cbn in K; rewrite Nat.add_0_r in K; congruence). rewrite Hi. destruct (Nat.eqb_spec j i) as [->|N].
    + rewrite nth_error_app2 by lia. replace (i - _)%nat with 0%nat by lia. reflexivity.
    + destruct (Nat.lt_ge_cases j i) as [J|J]; [rewrite nth_error_app1 by lia; apply firstn_nth, J|]. rewrite nth_error_app2 by lia. rewrite F. specialize (K (j - i)%nat). replace (i + (j - i))%nat with j in K by lia. rewrite <- K. destruct (j - i)%nat eqn:D; [lia|reflexivity].
  - rewrite skipn_all2, app_nil_r, firstn_all2 by lia. destruct (Nat.eqb_spec j i) as [->|N]; [|reflexivity]. destruct (nth_error l i) eqn:E; [|reflexivity]. exfalso. assert (i < length l)%nat by (apply nth_error_Some; congruence). lia.
Qed.
Definition times (s1 s2 : slab) : slab := map (fun ab => (fst (fst ab), cmulconj (snd (fst ab)) (snd (snd ab)))) (combine s1 s2).
Lemma steps same c1 c2 : forall n, (n <= Nat.min (length c1) (length c2))%nat -> (same = true -> c1 = c2) ->
  length (fold_left (power_step same c2) (seq 0 n) c1) = length c1 /\
  forall j, nth_error (fold_left (power_step same c2) (seq 0 n) c1) j = if (j <? n)%nat then match nth_error c1 j, nth_error c2 j with Some a, Some b => Some (times a b) | _, _ => None end else nth_error c1 j.
Proof.
  induction n as [|n IH]; intros L HS; [split; [reflexivity|intros j; destruct j; reflexivity]|].
  destruct (IH ltac:(lia) HS) as [I1 I2]. rewrite seq_S, fold_left_app. change (0 + n)%nat with n. cbn [fold_left]. set (mem := fold_left _ _ c1) in *. unfold power_step. split; [rewrite put_slab_length; exact I1|].
  intros j. rewrite put_slab_nth. assert (Mn : nth_error mem n = nth_error c1 n) by (rewrite I2, Nat.ltb_irrefl; reflexivity).
  destruct (nth_error c1 n) as [a|] eqn:Ea; [|apply nth_error_None in Ea; lia]. destruct (nth_error c2 n) as [b|] eqn:Eb; [|apply nth_error_None in Eb; lia].
  assert (N1 : nth n mem [] = a) by (apply nth_error_nth; exact Mn). assert (N2 : nth n (if same then mem else c2) [] = b). { destruct same; [|apply nth_error_nth; exact Eb]. rewrite N1. rewrite (HS eq_refl) in Ea. congruence. }
  rewrite N1, N2. destruct (Nat.eqb_spec j n) as [->|NE].
  - rewrite Mn. replace (n <? S n)%nat with true by (symmetry; apply Nat.ltb_lt; lia). rewrite Ea, Eb. reflexivity.
  - rewrite I2. destruct (Nat.ltb_spec j n), (Nat.ltb_spec j (S n)); try reflexivity; lia.
Qed.
Definition at_mode (c : list slab) (i j : nat) : option (list Z * cx) := match nth_error c i with Some s => nth_error s j | None => None end.
Definition at_origin (k : list Z) : bool := forallb (fun i => (i =? 0)%Z) k.
Lemma nth_comb {X Y} (l : list X) (m : list Y) i : nth_error (combine l m) i = match nth_error l i, nth_error m i with Some a, Some b => Some (a, b) | _, _ => None end.
Proof. apply UniqProofs.nth_combine. Qed.
(* every mode of the product *)
Theorem power_modes compute first second : let c1 := compute (m_data first) (m_box first) (m_nmesh first) in let c2 := compute (m_data second) (m_box second) (m_nmesh first) in
  (m_obj first = m_obj second -> first = second) -> map (map fst) (f_slabs c1) = map (map fst) (f_slabs c2) ->
  length (p_slabs (compute_3d_power compute first second)) = length (f_slabs c1) /\
  (forall i j k a, at_mode (f_slabs c1) i j = Some (k, a) -> exists b, at_mode (f_slabs c2) i j = Some (k, b) /\
    at_mode (p_slabs (compute_3d_power compute first second)) i j = Some (k, if at_origin k then (0, 0) else cscale (prod (m_box first)) (cmulconj a b))) /\
  (forall i j, at_mode (f_slabs c1) i j = None -> at_mode (p_slabs (compute_3d_power compute first second)) i j = None).
Proof.
  intros c1 c2 OB LAY. unfold compute_3d_power. fold c1. set (same := (m_obj first =? m_obj second)%nat). assert (C2 : (if same then c1 else compute (m_data second) (m_box second) (m_nmesh first)) = c2).
  { unfold same. destruct (Nat.eqb_spec (m_obj first) (m_obj second)) as [E|]; [unfold c1, c2; rewrite <- (OB E); reflexivity|reflexivity]. }
  rewrite C2. cbn [p_slabs]. assert (LL : length (f_slabs c1) = length (f_slabs c2)) by (apply (f_equal (@length _)) in LAY; rewrite !map_length in LAY; exact LAY).
  assert (HS : same = true -> f_slabs c1 = f_slabs c2). { unfold same. intros E. apply Nat.eqb_eq in E. unfold c1, c2. rewrite <- (OB E). reflexivity. }
  clear C2. clearbody c1 c2. destruct (steps same (f_slabs c1) (f_slabs c2) _ (le_n _) HS) as [S1 S2]. unfold product3d. set (p := fold_left _ _ _) in *. clearbody p.
  assert (AM : forall i j, at_mode (map (map (fun iv => (fst iv, cscale (prod (m_box first)) (snd iv)))) (map clear_zero p)) i j =
    match at_mode (f_slabs c1) i j, at_mode (f_slabs c2) i j with Some (k, a), Some (_, b) => Some (k, if at_origin k then (0, 0) else cscale (prod (m_box first)) (cmulconj a b)) | _, _ => None end).
  { intros i j. unfold at_mode. rewrite !nth_error_map, S2. rewrite <- LL, Nat.min_id. destruct (Nat.ltb_spec i (length (f_slabs c1))) as [L|L].
    - destruct (nth_error (f_slabs c1) i) as [a|] eqn:Ea; [|reflexivity]. destruct (nth_error (f_slabs c2) i) as [b|] eqn:Eb; [|apply nth_error_None in Eb; lia]. cbn [option_map]. unfold clear_zero, times. rewrite !nth_error_map, nth_comb. destruct (nth_error a j) as [[k x]|]; [|reflexivity]. destruct (nth_error b j) as [[k' y]|]; [|reflexivity]. cbn [option_map fst snd].
      fold (at_origin k). destruct (at_origin k); [|reflexivity]. unfold cscale. cbn [fst snd]. rewrite Rmult_0_r. reflexivity.
    - assert (E : nth_error (f_slabs c1) i = None) by (apply nth_error_None; exact L). rewrite E. reflexivity. }
  split; [rewrite !map_length; exact S1|]. split.
  - intros i j k a H. rewrite AM, H. unfold at_mode in H |- *. destruct (nth_error (f_slabs c1) i) as [sa|] eqn:Ea; [|discriminate]. assert (Q : option_map (map fst) (nth_error (f_slabs c1) i) = option_map (map fst) (nth_error (f_slabs c2) i)) by (rewrite <- !nth_error_map; exact (f_equal (fun l => nth_error l i) LAY)). rewrite Ea in Q. destruct (nth_error (f_slabs c2) i) as [sb|]; [|discriminate]. cbn [option_map] in Q. injection Q as Q.
    pose proof (f_equal (fun l => nth_error l j) Q) as Q'. cbn beta in Q'. rewrite !nth_error_map, H in Q'. destruct (nth_error sb j) as [[k' b]|]; [|discriminate]. cbn in Q'. injection Q' as <-. exists b. split; reflexivity.
  - intros i j H. rewrite AM, H. reflexivity.
Qed.
(* sources *)
Theorem cast_ok next s box nmesh m : cast_source next s box nmesh = Ok m <->
  s_kind s <> KOther /\ m_data m = s_data s /\ m_comm m = s_comm s /\ m_obj m = match s_kind s with KMesh => s_obj s | _ => next end /\
  (forall b, box = Some b -> m_box m = spread b) /\ (forall n, nmesh = Some n -> m_nmesh m = spread n) /\
  match s_kind s with
  | KCatalog => (box = None -> exists b, s_box s = Some b /\ m_box m = spread b) /\ (nmesh = None -> exists n, s_nmesh s = Some n /\ m_nmesh m = spread n)
  | _ => s_box s = Some (m_box m) /\ s_nmesh s = Some (m_nmesh m)
  end.
Proof.
  pose proof (fun l m => alleq_iff reqb reqb_iff l m) as AB. pose proof (fun l m => alleq_iff Z.eqb Z.eqb_eq l m) as AN.
  assert (OWN : forall o, match s_kind s with KField | KMesh => True | _ => False end ->
    rbind (match s_box s, s_nmesh s with Some b, Some n => Ok {| m_obj := o; m_comm := s_comm s; m_box := b; m_nmesh := n; m_data := s_data s |} | _, _ => Err OutOfContract end) (fun m0 =>
      rbind (match box with Some b => if alleq reqb (m_box m0) (spread b) then Ok tt else Err ValueError | None => Ok tt end) (fun _ =>
      rbind (match nmesh with Some n => if alleq Z.eqb (m_nmesh m0) (spread n) then Ok tt else Err ValueError | None => Ok tt end) (fun _ => Ok m0))) = Ok m <->
    m_data m = s_data s /\ m_comm m = s_comm s /\ m_obj m = o /\ (forall b, box = Some b -> m_box m = spread b) /\ (forall n, nmesh = Some n -> m_nmesh m = spread n) /\ s_box s = Some (m_box m) /\ s_nmesh s = Some (m_nmesh m)).
  { intros o _. destruct (s_box s) as [b|]; [|split; [discriminate|intros (_ & _ & _ & _ & _ & H & _); discriminate]]. destruct (s_nmesh s) as [n|]; [|split; [discriminate|intros (_ & _ & _ & _ & _ & _ & H); discriminate]]. cbn [rbind m_box m_nmesh]. split.
    - intros H. destruct box as [b'|]; cbn [rbind] in H; [destruct (alleq reqb b (spread b')) eqn:E; [apply AB in E|discriminate]; cbn [rbind] in H|]; (destruct nmesh as [n'|]; [destruct (alleq Z.eqb n (spread n')) eqn:F; [apply AN in F|discriminate]|]); cbn [rbind] in H; injection H as <-; cbn; repeat split; intros; congruence.
    - intros (D1 & D2 & D3 & D4 & D5 & D6 & D7). injection D6 as D6. injection D7 as D7. assert (ME : m = {| m_obj := o; m_comm := s_comm s; m_box := b; m_nmesh := n; m_data := s_data s |}) by (destruct m; cbn in *; congruence).
      destruct box as [b'|]; [rewrite (proj2 (AB b (spread b')) ltac:(rewrite <- (D4 b' eq_refl); exact D6))|]; cbn [rbind]; (destruct nmesh as [n'|]; [rewrite (proj2 (AN n (spread n')) ltac:(rewrite <- (D5 n' eq_refl); exact D7))|]); cbn [rbind]; rewrite ME; reflexivity. }
  unfold cast_source. destruct (s_kind s) eqn:K.
  - rewrite OWN by exact I. split; [intros H; split; [discriminate|exact H]|intros [_ H]; exact H].
  - split.
    + intros H. destruct (match box with Some b => Some b | None => s_box s end) as [b|] eqn:EB; [|discriminate]. destruct (match nmesh with Some n => Some n | None => s_nmesh s end) as [n|] eqn:EN; [|discriminate]. cbn [rbind m_box m_nmesh] in H.
      assert (HM : m = {| m_obj := next; m_comm := s_comm s; m_box := spread b; m_nmesh := spread n; m_data := s_data s |}). { destruct box as [b'|]; cbn [rbind] in H; [destruct (alleq reqb _ _); [|discriminate]; cbn [rbind] in H|]; (destruct nmesh as [n'|]; cbn [rbind] in H; [destruct (alleq Z.eqb _ _); [|discriminate]; cbn [rbind] in H|]); congruence. }
      subst m. cbn. split; [discriminate|]. split; [reflexivity|]. split; [reflexivity|]. split; [reflexivity|]. split; [intros b' ->; congruence|]. split; [intros n' ->; congruence|]. split; [intros ->; exists b; auto|intros ->; exists n; auto].
    + intros (_ & D1 & D2 & D3 & D4 & D5 & D6 & D7).
      assert (EB : exists b, match box with Some b => Some b | None => s_box s end = Some b /\ m_box m = spread b) by (destruct box as [b|]; [exists b; split; [reflexivity|apply D4; reflexivity]|destruct (D6 eq_refl) as (b & ? & ?); exists b; auto]).
      assert (EN : exists n, match nmesh with Some n => Some n | None => s_nmesh s end = Some n /\ m_nmesh m = spread n) by (destruct nmesh as [n|]; [exists n; split; [reflexivity|apply D5; reflexivity]|destruct (D7 eq_refl) as (n & ? & ?); exists n; auto]).
      destruct EB as (b & -> & EB). destruct EN as (n & -> & EN). cbn [rbind m_box m_nmesh]. assert (ME : m = {| m_obj := next; m_comm := s_comm s; m_box := spread b; m_nmesh := spread n; m_data := s_data s |}) by (destruct m; cbn in *; congruence).
      destruct box as [b'|]; [rewrite (proj2 (AB (spread b) (spread b')) ltac:(rewrite <- EB; apply D4; reflexivity))|]; cbn [rbind]; (destruct nmesh as [n'|]; [rewrite (proj2 (AN (spread n) (spread n')) ltac:(rewrite <- EN; apply D5; reflexivity))|]); cbn [rbind]; rewrite ME; reflexivity.
  - rewrite OWN by exact I. split; [intros H; split; [discriminate|exact H]|intros [_ H]; exact H].
  - split; [discriminate|intros [H _]; congruence].
Qed.
Theorem cast_err next s box nmesh e : cast_source next s box nmesh = Err e -> (s_kind s <> KField /\ s_kind s <> KMesh \/ s_box s <> None /\ s_nmesh s <> None) -> e = if match s_kind s with KOther => true | _ => false end then TypeError else ValueError.
Proof.
  unfold cast_source. intros H C. destruct (s_kind s) eqn:K.
  - destruct C as [[C _]|[C1 C2]]; [congruence|]. destruct (s_box s) as [b|]; [|congruence]. destruct (s_nmesh s) as [n|]; [|congruence]. cbn [rbind] in H. destruct box; cbn [rbind] in H; [destruct (alleq reqb _ _); cbn [rbind] in H; [|congruence]|]; (destruct nmesh; [destruct (alleq Z.eqb _ _); cbn [rbind] in H; congruence|discriminate]).
  - destruct (match box with Some b => Some b | None => s_box s end) as [b|]; [|cbn [rbind] in H; congruence]. destruct (match nmesh with Some n => Some n | None => s_nmesh s end) as [n|]; [|cbn [rbind] in H; congruence]. cbn [rbind] in H. destruct box; cbn [rbind] in H; [destruct (alleq reqb _ _); cbn [rbind] in H; [|congruence]|]; (destruct nmesh; [destruct (alleq Z.eqb _ _); cbn [rbind] in H; congruence|discriminate]).
  - destruct C as [[_ C]|[C1 C2]]; [congruence|]. destruct (s_box s) as [b|]; [|congruence]. destruct (s_nmesh s) as [n|]; [|congruence]. cbn [rbind] in H. destruct box; cbn [rbind] in H; [destruct (alleq reqb _ _); cbn [rbind] in H; [|congruence]|]; (destruct nmesh; [destruct (alleq Z.eqb _ _); cbn [rbind] in H; congruence|discriminate]).
  - cbn [rbind] in H. congruence.
Qed.
Theorem init_ok next first second nmesh box f s : base_init next first second nmesh box = Ok (f, s) <->
  cast_source next first box nmesh = Ok f /\ match second with Some x => cast_source (S next) x box nmesh = Ok s | None => s = f end /\ m_comm s = m_comm f /\ m_box f = m_box s.
Proof.
  unfold base_init. pose proof (alleq_iff reqb reqb_iff) as AB. split.
  - intros H. destruct (cast_source next first box nmesh) as [f'|] eqn:E; [|discriminate]. cbn [rbind] in H.
    destruct (match second with Some s0 => cast_source (S next) s0 box nmesh | None => Ok f' end) as [s'|] eqn:E2; [|discriminate]. cbn [rbind] in H. destruct (m_comm s' =? m_comm f')%nat eqn:C; [|discriminate]. cbn [negb] in H. destruct (alleq reqb (m_box f') (m_box s')) eqn:B; [|discriminate]. cbn [negb] in H. injection H as <- <-.
    split; [reflexivity|]. split; [destruct second; [exact E2|congruence]|]. split; [apply Nat.eqb_eq, C|apply AB, B].
  - intros (E & E2 & C & B). rewrite E. cbn [rbind]. assert (E3 : match second with Some s0 => cast_source (S next) s0 box nmesh | None => Ok f end = Ok s) by (destruct second; [exact E2|congruence]). rewrite E3. cbn [rbind]. rewrite C, Nat.eqb_refl. cbn [negb]. rewrite (proj2 (AB (m_box f) (m_box s)) B). reflexivity.
Qed.
(* the two meshes are one object for one source or twice the same mesh *)
Definition one_object (first : src) (second : option src) : Prop := match second with None => True | Some x => s_kind first = KMesh /\ s_kind x = KMesh /\ s_obj first = s_obj x end.
Lemma init_same next first second nmesh box f s : base_init next first second nmesh box = Ok (f, s) -> (s_obj first < next)%nat -> (forall x, second = Some x -> (s_obj x < next)%nat /\ (s_obj x = s_obj first -> x = first)) ->
  (m_obj f = m_obj s <-> one_object first second) /\ (m_obj f = m_obj s -> f = s).
Proof.
  intros H L1 L2. apply init_ok in H as (F & G & _ & _). destruct second as [x|]; [|subst s; split; [split; intros; [exact I|reflexivity]|reflexivity]]. destruct (L2 x eq_refl) as [L3 ID].
  pose proof (proj1 (cast_ok _ _ _ _ _) F) as (K1 & D1 & C1 & O1 & B1 & N1 & R1). pose proof (proj1 (cast_ok _ _ _ _ _) G) as (K2 & D2 & C2 & O2 & B2 & N2 & R2). cbn [one_object].
  assert (IFF : m_obj f = m_obj s <-> s_kind first = KMesh /\ s_kind x = KMesh /\ s_obj first = s_obj x) by (rewrite O1, O2; destruct (s_kind first), (s_kind x); split; intros Q; try (destruct Q as (? & ? & ?)); try congruence; try (repeat split; congruence); try lia).
  split; [exact IFF|]. intros E. apply IFF in E as (M1 & M2 & M3). rewrite (ID (eq_sym M3)) in *. assert (O : m_obj f = m_obj s) by (rewrite M1 in *; congruence). assert (cast_source next first box nmesh = cast_source (S next) first box nmesh) by (unfold cast_source; rewrite M1; reflexivity). congruence.
Qed.
(* shapes *)
Lemma squeeze2 a b : squeeze [a; b] = (if (a =? 1)%nat then [] else [a]) ++ (if (b =? 1)%nat then [] else [b]).
Proof. unfold squeeze. cbn [filter]. destruct (a =? 1)%nat, (b =? 1)%nat; reflexivity. Qed.
Lemma nodupb_iff l : nodupb l = true <-> NoDup l.
Proof.
  induction l as [|x l IH]; cbn [nodupb]; [split; [constructor|reflexivity]|]. rewrite andb_true_iff, negb_true_iff, IH. split.
  - intros [H1 H2]. constructor; [|exact H2]. intros I. assert (existsb (String.eqb x) l = true) by (apply existsb_exists; exists x; split; [exact I|apply String.eqb_refl]). congruence.
  - intros H. inversion H as [|? ? N D]; subst. split; [|exact D]. destruct (existsb (String.eqb x) l) eqn:E; [|reflexivity]. apply existsb_exists in E as (y & I & Q). apply String.eqb_eq in Q. subst y. contradiction.
Qed.
Lemma stat_ok dims edges coords names shape rows sums : length dims = length edges -> shape = map (fun e => pred (length e)) edges ->
  new_stat dims edges coords names shape rows sums = Ok {| t_dims := dims; t_edges := edges; t_coords := map (fun ec => match snd ec with Some c => c | None => mid (fst ec) end) (combine edges coords); t_names := names; t_shape := shape; t_rows := rows; t_sum := sums |}.
Proof. intros H1 ->. unfold new_stat. rewrite H1, Nat.eqb_refl. cbn [negb]. rewrite (proj2 (alleq_iff Nat.eqb Nat.eqb_eq _ _) eq_refl). reflexivity. Qed.
Lemma ell_nodup x (ell : Z -> string) poles : (forall a b, ell a = ell b -> a = b) -> (forall a, ell a <> x /\ ell a <> "modes"%string) -> x <> "modes"%string -> nodupb ([x] ++ map ell poles ++ ["modes"%string]) = true <-> NoDup poles.
Proof.
  intros INJ NE NX. rewrite nodupb_iff. cbn [app]. split.
  - intros H. inversion H as [|? ? _ D]; subst. apply NoDup_remove in D as [D _]. rewrite app_nil_r in D. apply NoDup_map_inv in D. exact D.
  - intros H. constructor.
    + intros I. apply in_app_or in I as [I|[I|[]]]; [|congruence]. apply in_map_iff in I as (a & E & _). exact (proj1 (NE a) E).
    + apply (NoDup_Add (a := "modes"%string) (l := map ell poles)); [rewrite <- (app_nil_r (map ell poles)) at 1; apply Add_app|]. split.
      * apply Injective_map_NoDup; [intros a b; apply INJ|exact H].
      * intros I. apply in_map_iff in I as (a & E & _). exact (proj2 (NE a) E).
Qed.
Definition poles_of (x : string) (ell : Z -> string) (kedges : list R) (kcoords : option (list R)) (poles : list Z) (rows : list pcell) : option stat :=
  match poles with
  | [] => None
  | _ => Some {| t_dims := [x]; t_edges := [kedges]; t_coords := [match kcoords with Some c => c | None => mid kedges end]; t_names := [x] ++ map ell poles ++ ["modes"%string]; t_shape := [pred (length kedges)]; t_rows := map (fun q => q_x q :: q_poles q ++ [q_n q]) rows; t_sum := ["modes"%string] |}
  end%list.
Section R.
Variables (x y : string) (ell : Z -> string) (kedges muedges : list R) (kcoords : option (list R)) (poles : list Z) (result : list (list cell)) (prows : list pcell).
Hypothesis INJ : forall a b, ell a = ell b -> a = b.
Hypothesis NE : forall a, ell a <> x /\ ell a <> "modes"%string.
Hypothesis NX : x <> "modes"%string.
Theorem results_1d : length muedges = 2%nat -> make_results x y ell true kedges muedges kcoords poles result prows =
  if (length kedges =? 2)%nat then Err IndexError
  else if nodupb ([x] ++ map ell poles ++ ["modes"%string]) then Ok ({| t_dims := [x]; t_edges := [kedges]; t_coords := [match kcoords with Some c => c | None => mid kedges end]; t_names := [x; y; "modes"%string]; t_shape := [pred (length kedges)]; t_rows := map (fun c => [c_x c; c_y c; c_n c]) (concat result); t_sum := ["modes"%string] |}, poles_of x ell kedges kcoords poles prows)
  else Err ValueError.
Proof.
  intros Hmu. unfold make_results. rewrite Hmu. cbn [Nat.pred]. rewrite squeeze2. change (1 =? 1)%nat with true. cbv iota. rewrite app_nil_r.
  replace (pred (length kedges) =? 1)%nat with (length kedges =? 2)%nat by (destruct (Nat.eqb_spec (length kedges) 2), (Nat.eqb_spec (pred (length kedges)) 1); try reflexivity; lia).
  destruct (length kedges =? 2)%nat; [reflexivity|]. cbv iota. destruct poles as [|p ps].
  - assert (N : nodupb ([x] ++ map ell [] ++ ["modes"%string]) = true) by (apply ell_nodup; auto; constructor). rewrite N. cbn [rbind]. rewrite stat_ok by reflexivity. reflexivity.
  - destruct (nodupb ([x] ++ map ell (p :: ps) ++ ["modes"%string])) eqn:N; [|reflexivity]. cbn [rbind]. rewrite stat_ok by reflexivity. cbn [rbind]. rewrite stat_ok by reflexivity. reflexivity.
Qed.
Theorem results_2d : make_results x y ell false kedges muedges kcoords poles result prows =
  if ((length kedges =? 2) && (length muedges =? 2))%nat then Err IndexError
  else if ((length kedges =? 2) || (length muedges =? 2))%nat then Err ValueError
  else if nodupb ([x] ++ map ell poles ++ ["modes"%string]) then Ok ({| t_dims := [x; "mu"%string]; t_edges := [kedges; muedges]; t_coords := [match kcoords with Some c => c | None => mid kedges end; mid muedges]; t_names := [x; "mu"%string; y; "modes"%string]; t_shape := [pred (length kedges); pred (length muedges)]; t_rows := map (fun c => [c_x c; c_mu c; c_y c; c_n c]) (concat result); t_sum := ["modes"%string] |}, poles_of x ell kedges kcoords poles prows)
  else Err ValueError.
Proof.
  unfold make_results. rewrite squeeze2. set (nk := length kedges). set (nm := length muedges).
  replace (pred nk =? 1)%nat with (nk =? 2)%nat by (destruct (Nat.eqb_spec nk 2), (Nat.eqb_spec (pred nk) 1); try reflexivity; lia). replace (pred nm =? 1)%nat with (nm =? 2)%nat by (destruct (Nat.eqb_spec nm 2), (Nat.eqb_spec (pred nm) 1); try reflexivity; lia).
  destruct (nk =? 2)%nat eqn:E1, (nm =? 2)%nat eqn:E2; cbn [andb orb]; [reflexivity|rewrite app_nil_l; cbv iota|rewrite app_nil_r; cbv iota|change ([pred nk] ++ [pred nm]) with [pred nk; pred nm]; cbv iota].
  - assert (B : forall rows names, new_stat [x; "mu"%string] [kedges; muedges] [kcoords; None] names [pred nm] rows ["modes"%string] = Err ValueError) by (intros rows names; unfold new_stat; cbn [length Nat.eqb negb map]; cbn [alleq]; rewrite andb_false_r; reflexivity). destruct poles as [|p ps]; [cbn [rbind]; rewrite B; reflexivity|]. destruct (nodupb _); [cbn [rbind]; rewrite B; reflexivity|reflexivity].
  - assert (B : forall rows names, new_stat [x; "mu"%string] [kedges; muedges] [kcoords; None] names [pred nk] rows ["modes"%string] = Err ValueError) by (intros rows names; unfold new_stat; cbn [length Nat.eqb negb map]; cbn [alleq]; rewrite andb_false_r; reflexivity). destruct poles as [|p ps]; [cbn [rbind]; rewrite B; reflexivity|]. destruct (nodupb _); [cbn [rbind]; rewrite B; reflexivity|reflexivity].
  - destruct poles as [|p ps].
    + assert (N : nodupb ([x] ++ map ell [] ++ ["modes"%string]) = true) by (apply ell_nodup; auto; constructor). rewrite N. cbn [rbind]. rewrite stat_ok by reflexivity. reflexivity.
    + destruct (nodupb ([x] ++ map ell (p :: ps) ++ ["modes"%string])) eqn:N; [|reflexivity]. cbn [rbind]. rewrite stat_ok by reflexivity. cbn [rbind]. rewrite stat_ok by reflexivity. reflexivity.
Qed.
End R.
(* saved and loaded *)
Lemma reload_new dims edges coords names shape rows sums t : length coords = length edges -> new_stat dims edges coords names shape rows sums = Ok t -> reload t = Ok (strip t).
Proof.
  intros LC H. unfold new_stat in H. destruct (length dims =? length edges)%nat eqn:E1; [|discriminate]. cbn [negb] in H. destruct (alleq Nat.eqb shape (map (fun e => pred (length e)) edges)) eqn:E2; [|discriminate]. cbn [negb] in H. apply Nat.eqb_eq in E1. apply (alleq_iff Nat.eqb Nat.eqb_eq) in E2. injection H as <-. unfold reload. cbn [t_dims t_edges t_coords t_names t_shape t_rows].
  rewrite stat_ok by assumption. unfold strip. cbn [t_dims t_edges t_coords t_names t_shape t_rows]. f_equal. f_equal.
  clear - LC. revert coords LC. induction edges as [|e edges IH]; intros [|c coords] LC; cbn in LC; try lia; [reflexivity|]. cbn [combine map fst snd]. f_equal. apply IH. lia.
Qed.
Theorem loaded x y ell one kedges muedges kcoords poles result prows power ps : make_results x y ell one kedges muedges kcoords poles result prows = Ok (power, ps) ->
  load_results power ps = Ok {| v_power := strip power; v_poles := match ps with Some q => Some (Some (strip q)) | None => None end |}.
Proof.
  unfold make_results. intros H. destruct (squeeze [pred (length kedges); pred (length muedges)]) as [|s0 sh]; [discriminate|]. match type of H with rbind ?e _ = _ => destruct e as [o|]; [|discriminate] end. cbn [rbind] in H.
  match type of H with rbind ?e _ = _ => destruct e as [pw|] eqn:EP; [|discriminate] end. cbn [rbind] in H.
  assert (RP : reload pw = Ok (strip pw)) by (destruct one; eapply reload_new; try exact EP; reflexivity).
  destruct o as [rows|].
  - match type of H with rbind ?e _ = _ => destruct e as [q|] eqn:EQ; [|discriminate] end. cbn [rbind] in H. injection H as <- <-. unfold load_results. rewrite RP. cbn [rbind]. assert (RQ : reload q = Ok (strip q)) by (eapply reload_new; try exact EQ; reflexivity). rewrite RQ. reflexivity.
  - injection H as <- <-. unfold load_results. rewrite RP. reflexivity.
Qed.
(* the bins in separation *)
Theorem corr_linear N L ranks dr r0 rmax : 0 < dr -> exists edges, r_edges N L ranks (Some dr) r0 (Some rmax) = Ok (edges, None) /\
  forall i, nth_error edges i = if Rlt_dec (r0 + INR i * dr) rmax then Some (r0 + INR i * dr) else None.
Proof.
  intros H. unfold r_edges. destruct (rltb 0 dr) eqn:E; [|exfalso; assert (rltb 0 dr = true) by (apply rltb_iff; exact H); congruence]. eexists. split; [reflexivity|]. intros i. apply arange_nth, H.
Qed.
Theorem corr_half N L ranks dr r0 : 0 < dr -> L <> [] -> exists edges, r_edges N L ranks (Some dr) r0 None = Ok (edges, None) /\ (forall e l, In e edges -> In l L -> e < l / 2 + dr / 2) /\
  forall i, r0 + INR i * dr < rmin L / 2 -> nth_error edges i = Some (r0 + INR i * dr).
Proof.
  intros H NL. unfold r_edges. destruct (rltb 0 dr) eqn:E; [|exfalso; assert (rltb 0 dr = true) by (apply rltb_iff; exact H); congruence]. eexists. split; [reflexivity|]. split.
  - intros e l He Hl. apply In_nth_error in He as (i & Hi). rewrite arange_nth in Hi by exact H. destruct (Rlt_dec _ _) as [LT|]; [|discriminate]. injection Hi as <-. pose proof (rmin_le L l Hl). lra.
  - intros i Hi. rewrite arange_nth by exact H. destruct (Rlt_dec _ _) as [|C]; [reflexivity|exfalso; apply C; lra].
Qed.
