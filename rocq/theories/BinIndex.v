(* Proofs about indexing of binned statistics. *)
From Verif Require Import Base BaseProofs Num BinModel BinSpec BinArr BinProofs.
Local Open Scope nat_scope.

Lemma norm_spec n i j : j < n -> (i = Z.of_nat j \/ i = Z.of_nat j - Z.of_nat n)%Z -> norm n i = Some j.
Proof.
  intros Hj [->| ->]; unfold norm.
  - destruct (Z.leb_spec 0 (Z.of_nat j)); [|lia]. destruct (Z.ltb_spec (Z.of_nat j) (Z.of_nat n)); [|lia]. f_equal. lia.
  - destruct (Z.leb_spec 0 (Z.of_nat j - Z.of_nat n)); [lia|]. destruct (Z.leb_spec 0 (Z.of_nat j - Z.of_nat n + Z.of_nat n)); [|lia]. f_equal. lia.
Qed.
Lemma norms_spec n js : Forall (fun j => j < n) js -> norms n (map Z.of_nat js) = Ok js.
Proof.
  unfold norms. induction 1 as [|j js Hj H IH]; [reflexivity|]. cbn [map rall]. rewrite (norm_spec n _ j Hj) by (left; reflexivity). cbn [rbind]. rewrite IH. reflexivity.
Qed.
Lemma map_of_nat_to_nat l js : map Z.of_nat js = l -> map Z.to_nat l = js.
Proof. intros <-. rewrite map_map. rewrite <- (map_id js) at 2. apply map_ext. intros x. apply Nat2Z.id. Qed.
Lemma wanted_lt n k b js : wanted n k b js -> Forall (fun j => j < n) js.
Proof.
  intros H. inversion H as [i j Hj|js' HF|a b' c x y z js' HS HR]; subst; auto. apply Forall_forall. intros j Hj. apply (in_map Z.of_nat) in Hj. rewrite HR in Hj.
  pose proof (slice_indices_spec _ _ _ _ _ _ _ (Zle_0_nat n) HS) as (Hz & Hp & Hn). destruct (Z_lt_le_dec 0 z) as [Hz'|Hz'].
  - apply in_py_range_pos in Hj; [|exact Hz']. specialize (Hp Hz'). lia.
  - assert (z < 0)%Z as Hz2 by lia. apply in_py_range_neg in Hj; [|exact Hz2]. specialize (Hn Hz2). lia.
Qed.
Lemma seq_lt n : Forall (fun j => j < n) (seq 0 n).
Proof. apply Forall_forall. intros j Hj. apply in_seq in Hj. lia. Qed.

(* resolved keys *)
Definition agree (bj : bool * list nat) (r : rkey) : Prop :=
  match r with RInt j => bj = (false, [j]) | RList js | RSlice js => bj = (true, js) end.
Lemma resolve_wanted n k b js : wanted n k b js -> exists r, resolve n k = Ok r /\ agree (b, js) r /\ is_list r = is_klist k /\ is_slice r = is_kslice k.
Proof.
  intros H. destruct H as [i j Hj Hi|js HF|a b c x y z js HS HR]; cbn [resolve].
  - rewrite (norm_spec n i j Hj Hi). eexists. repeat split; reflexivity.
  - rewrite (norms_spec n js HF). eexists. repeat split; reflexivity.
  - unfold slice_list. rewrite HS. cbn [rbind]. rewrite (map_of_nat_to_nat _ _ HR). eexists. repeat split; reflexivity.
Qed.
Lemma range_full n : slice_list n None None None = Ok (map Z.of_nat (seq 0 n)).
Proof.
  unfold slice_list, slice_indices. cbn [Z.eqb Z.ltb Z.compare rbind clip_start]. f_equal. apply nth_error_ext. intros k. rewrite py_range_nth, nth_error_map', nth_error_seq.
  pose proof (range_len_pos_lt 0 (Z.of_nat n) 1 (Z.of_nat k) ltac:(lia) ltac:(lia)) as R.
  destruct (Z.ltb_spec (Z.of_nat k) (range_len 0 (Z.of_nat n) 1)), (Nat.ltb_spec k n); try lia; cbn; [f_equal; lia|reflexivity].
Qed.
Lemma resolve_full n : resolve n (KSlice None None None) = Ok (RSlice (seq 0 n)).
Proof. cbn [resolve]. rewrite range_full. cbn [rbind]. rewrite (map_of_nat_to_nat _ _ eq_refl). reflexivity. Qed.

(* ---- resolving a whole key ---- *)
Lemma wants_length sh ks fl jss : wants sh ks fl jss -> length ks <= length sh /\ length fl = length sh /\ length jss = length sh.
Proof. induction 1 as [|n sh fl jss H IH|n sh k ks b fl js jss H0 H IH]; cbn [length] in *; lia. Qed.
Definition padded (sh : list nat) (ks : list subkey) : list subkey := ks ++ repeat (KSlice None None None) (length sh - length ks).
Lemma resolve_wants sh ks fl jss : wants sh ks fl jss ->
  exists rs, rall (map (fun nk => resolve (fst nk) (snd nk)) (combine sh (padded sh ks))) = Ok rs /\
    Forall2 agree (combine fl jss) rs /\ map is_list rs = map is_klist (padded sh ks) /\ map is_slice rs = map is_kslice (padded sh ks).
Proof.
  unfold padded. induction 1 as [|n sh fl jss H IH|n sh k ks b fl js jss H0 H IH].
  - exists []. repeat split; constructor.
  - destruct IH as (rs & E & A & L1 & L2). cbn [length] in *. rewrite Nat.sub_0_r in *. cbn [app repeat combine map rall fst snd] in *. rewrite resolve_full. cbn [rbind]. rewrite E. cbn [rbind].
    exists (RSlice (seq 0 n) :: rs). cbn [map is_list is_slice is_klist is_kslice]. rewrite L1, L2. split; [reflexivity|]. split; [constructor; [reflexivity|exact A]|]. split; reflexivity.
  - destruct IH as (rs & E & A & L1 & L2). destruct (resolve_wanted n k b js H0) as (r & Er & Ar & R1 & R2).
    cbn [length app combine map rall fst snd Nat.sub]. rewrite Er. cbn [rbind]. rewrite E. cbn [rbind].
    exists (r :: rs). cbn [map]. rewrite L1, L2, R1, R2. split; [reflexivity|]. split; [constructor; [exact Ar|exact A]|]. split; reflexivity.
Qed.

(* ---- the selected array ---- *)
Definition lens (fl : list bool) (jss : list (list nat)) : list nat := keep fl (map (@length nat) jss).
Lemma agree_split fl jss rs : length fl = length jss -> Forall2 agree (combine fl jss) rs ->
  (fl = [] /\ jss = [] /\ rs = []) \/
  (exists fl' js jss' r rs', (exists b, fl = b :: fl' /\ agree (b, js) r) /\ jss = js :: jss' /\ rs = r :: rs' /\ length fl' = length jss' /\ Forall2 agree (combine fl' jss') rs').
Proof.
  intros HL H. destruct fl as [|b fl], jss as [|js jss]; try discriminate; cbn [combine] in H; inversion H; subst; [left; auto|right].
  eexists _, _, _, _, _. repeat split; eauto.
Qed.
(* slices only (and integers) *)
Lemma expand_nolist rs : forall fl jss, length fl = length jss -> Forall2 agree (combine fl jss) rs -> Forall (fun r => is_list r = false) rs ->
  slice_lens rs = lens fl jss /\ forall idx l, valid (lens fl jss) idx -> expand rs idx l = full fl jss idx.
Proof.
  unfold lens. induction rs as [|r rs IH]; intros fl jss HL HA HN; destruct (agree_split _ _ _ HL HA) as [(-> & -> & E)|(fl' & js & jss' & r' & rs' & (b & -> & Hr) & -> & E & HL' & HA')]; try discriminate.
  - split; reflexivity.
  - injection E as <- <-. inversion HN as [|? ? N1 N2]; subst. destruct (IH fl' jss' HL' HA' N2) as [I1 I2].
    destruct r as [j|l0|l0]; try discriminate; cbn [agree] in Hr; injection Hr as -> ->; cbn [map keep].
    + split; [exact I1|]. intros idx l HV. cbn [expand full hd]. f_equal. apply I2, HV.
    + unfold slice_lens. cbn [flat_map app]. fold (slice_lens rs). rewrite I1. split; [reflexivity|]. intros idx l HV.
      inversion HV as [|i ? idx' ? Hi HV']; subst. cbn [expand full]. f_equal. apply I2, HV'.
Qed.
Definition is_int (r : rkey) : bool := match r with RInt _ => true | _ => false end.
Lemma broadcast_nolist rs : Forall (fun r => is_list r = false) rs -> broadcast rs = Some 1.
Proof. induction 1 as [|[j|l|l] rs H0 H IH]; try discriminate; auto. Qed.
Lemma broadcast_app rs rs' : Forall (fun r => is_list r = false) rs -> broadcast (rs ++ rs') = broadcast rs'.
Proof. induction 1 as [|[j|l|l] rs H0 H IH]; try discriminate; auto. Qed.
Lemma slice_nolist rs : Forall (fun r => is_slice r = true) rs -> Forall (fun r => is_list r = false) rs.
Proof. apply Forall_impl. intros [| |]; cbn; congruence. Qed.
Lemma int_nolist rs : Forall (fun r => is_int r = true) rs -> Forall (fun r => is_list r = false) rs.
Proof. apply Forall_impl. intros [| |]; cbn; congruence. Qed.
Lemma lead_app A rs : Forall (fun r => is_slice r = true) A -> lead (A ++ rs) = length A + lead rs.
Proof. induction 1 as [|[j|l|l] A H0 H IH]; try discriminate; cbn; auto. Qed.
Lemma slice_lens_app a b : slice_lens (a ++ b) = slice_lens a ++ slice_lens b.
Proof. unfold slice_lens. apply flat_map_app. Qed.
Lemma slice_lens_ints a : Forall (fun r => is_int r = true) a -> slice_lens a = [].
Proof. induction 1 as [|[j|l|l] A H0 H IH]; try discriminate; auto. Qed.
Lemma slice_lens_length A : Forall (fun r => is_slice r = true) A -> length (slice_lens A) = length A.
Proof. induction 1 as [|[j|l|l] A H0 H IH]; try discriminate; cbn; auto. Qed.
Lemma expand_app_slices A rs p idx l : Forall (fun r => is_slice r = true) A -> length p = length A ->
  expand (A ++ rs) (p ++ idx) l = expand A p l ++ expand rs idx l.
Proof.
  intros H. revert p. induction H as [|[j|l0|l0] A H0 H IH]; try discriminate; intros [|i p] HL; try discriminate; cbn [app expand]; [reflexivity|]. rewrite IH by (cbn in HL; lia). reflexivity.
Qed.
Lemma expand_app_ints A rs idx l : Forall (fun r => is_int r = true) A -> expand (A ++ rs) idx l = expand A idx l ++ expand rs idx l.
Proof. induction 1 as [|[j|l0|l0] A H0 H IH]; try discriminate; cbn [app expand]; [reflexivity|]. rewrite IH. reflexivity. Qed.
Lemma full_app f1 j1 f2 j2 p idx : length f1 = length j1 -> length p = length (lens f1 j1) -> full (f1 ++ f2) (j1 ++ j2) (p ++ idx) = full f1 j1 p ++ full f2 j2 idx.
Proof.
  unfold lens. revert j1 p. induction f1 as [|b f1 IH]; intros [|js j1] p HL HP; try discriminate.
  - destruct p; [reflexivity|discriminate].
  - cbn in HL. destruct b; cbn [map keep] in HP; cbn [app full].
    + destruct p as [|i p]; [discriminate|]. cbn [app]. rewrite IH; [reflexivity|lia|cbn in HP; lia].
    + rewrite IH; [reflexivity|lia|exact HP].
Qed.
Lemma keep_app {A} f1 (l1 : list A) f2 l2 : length f1 = length l1 -> keep (f1 ++ f2) (l1 ++ l2) = keep f1 l1 ++ keep f2 l2.
Proof. revert l1. induction f1 as [|b f1 IH]; intros [|x l1] HL; try discriminate; [reflexivity|]. cbn [app keep]. rewrite IH by (cbn in HL; lia). destruct b; reflexivity. Qed.
Lemma lens_app f1 j1 f2 j2 : length f1 = length j1 -> lens (f1 ++ f2) (j1 ++ j2) = lens f1 j1 ++ lens f2 j2.
Proof. intros HL. unfold lens. rewrite map_app, keep_app; [reflexivity|]. rewrite map_length. exact HL. Qed.

(* the value of fl and jss for given resolved keys *)
Definition flag (r : rkey) : bool := negb (is_int r).
Definition sels (r : rkey) : list nat := match r with RInt j => [j] | RList l | RSlice l => l end.
Lemma agree_funct fl jss rs : length fl = length jss -> Forall2 agree (combine fl jss) rs -> fl = map flag rs /\ jss = map sels rs.
Proof.
  revert fl jss. induction rs as [|r rs IH]; intros fl jss HL HA; destruct (agree_split _ _ _ HL HA) as [(-> & -> & E)|(fl' & js & jss' & r' & rs' & (b & -> & Hr) & -> & E & HL' & HA')]; try discriminate; [auto|].
  injection E as <- <-. destruct (IH _ _ HL' HA') as [-> ->]. destruct r; cbn [agree] in Hr; injection Hr as -> ->; auto.
Qed.
Lemma agree_self rs : Forall2 agree (combine (map flag rs) (map sels rs)) rs.
Proof. induction rs as [|[j|l|l] rs IH]; cbn [map combine]; constructor; auto; reflexivity. Qed.
Lemma expand_nolist' rs : Forall (fun r => is_list r = false) rs ->
  slice_lens rs = lens (map flag rs) (map sels rs) /\ forall idx l, valid (lens (map flag rs) (map sels rs)) idx -> expand rs idx l = full (map flag rs) (map sels rs) idx.
Proof. intros H. apply expand_nolist; [rewrite !map_length; reflexivity|apply agree_self|exact H]. Qed.

Definition rplain (rs : list rkey) : Prop :=
  Forall (fun r => is_list r = false) rs \/
  exists A B l C D, rs = A ++ B ++ RList l :: C ++ D /\
    Forall (fun k => is_slice k = true) A /\ Forall (fun k => is_int k = true) B /\
    Forall (fun k => is_int k = true) C /\ Forall (fun k => is_slice k = true) D.
Definition index_from {V} (a : arr V) (rs : list rkey) : res (arr V) :=
  if existsb is_list rs then
      match broadcast rs with
      | None => Err IndexError
      | Some L =>
          if together rs then
            let p := lead rs in
            Ok {| shape := insert_at p L (slice_lens rs); cell := fun idx => cell a (expand rs (remove_at p idx) (nth p idx 0)) |}
          else Ok {| shape := L :: slice_lens rs; cell := fun idx => cell a (expand rs (tl idx) (hd 0 idx)) |}
      end
    else Ok {| shape := slice_lens rs; cell := fun idx => cell a (expand rs idx 0) |}.
Lemma index_from_ok {V} (a : arr V) rs : rplain rs ->
  exists d, index_from a rs = Ok d /\ shape d = lens (map flag rs) (map sels rs) /\
    forall idx, valid (lens (map flag rs) (map sels rs)) idx -> cell d idx = cell a (full (map flag rs) (map sels rs) idx).
Proof.
  unfold index_from. intros [H|(A & B & l & C & D & -> & HA & HB & HC & HD)].
  - assert (existsb is_list rs = false) as ->.
    { apply not_true_is_false. intros HX. apply existsb_exists in HX. destruct HX as (r & Hr & E). rewrite Forall_forall in H. rewrite (H r Hr) in E. discriminate. }
    destruct (expand_nolist' rs H) as [E1 E2]. eexists. split; [reflexivity|]. cbn [shape cell]. split; [exact E1|]. intros idx HV. rewrite (E2 idx 0 HV). reflexivity.
  - assert (existsb is_list (A ++ B ++ RList l :: C ++ D) = true) as ->.
    { apply existsb_exists. exists (RList l). split; [rewrite !in_app_iff; right; right; left; reflexivity|reflexivity]. }
    assert (broadcast (A ++ B ++ RList l :: C ++ D) = Some (length l)) as ->.
    { rewrite !broadcast_app by (apply slice_nolist + apply int_nolist; assumption). cbn [broadcast].
      rewrite broadcast_app by (apply int_nolist; assumption). rewrite (broadcast_nolist D) by (apply slice_nolist; assumption). cbn [Nat.eqb orb].
      destruct (Nat.eqb_spec (length l) 1) as [->|]; reflexivity. }
    assert (LB : lead (B ++ RList l :: C ++ D) = 0).
    { destruct HB as [|b0 B E0 HB]; [reflexivity|]. destruct b0; try discriminate; reflexivity. }
    assert (lead (A ++ B ++ RList l :: C ++ D) = length A) as EL by (rewrite (lead_app _ _ HA), LB; lia).
    assert (together (A ++ B ++ RList l :: C ++ D) = true) as ->.
    { unfold together. rewrite EL. rewrite skipn_app, skipn_all, Nat.sub_diag. cbn [skipn app].
      set (drop := fix drop (l0 : list rkey) : list rkey := match l0 with [] => [] | RSlice _ :: _ => l0 | _ :: l1 => drop l1 end).
      assert (G : forall X Y, Forall (fun k => is_int k = true) X -> drop (X ++ Y) = drop Y).
      { intros X Y. induction 1 as [|[j|l0|l0] X E0 HX IH]; try discriminate; auto. }
      rewrite (G _ _ HB). cbn [drop]. fold drop. rewrite (G _ _ HC). clear -HD. destruct HD as [|d0 D E0 HD]; [reflexivity|]. destruct d0; try discriminate. cbn [drop]. apply forallb_forall. intros r Hr.
      assert (HF : Forall (fun k => is_slice k = true) (RSlice l :: D)) by (constructor; assumption). rewrite Forall_forall in HF. apply HF, Hr. }
    rewrite EL. eexists. split; [reflexivity|]. cbn [shape cell].
    destruct (expand_nolist' A (slice_nolist _ HA)) as [A1 A2]. destruct (expand_nolist' B (int_nolist _ HB)) as [B1 B2].
    destruct (expand_nolist' C (int_nolist _ HC)) as [C1 C2]. destruct (expand_nolist' D (slice_nolist _ HD)) as [D1 D2].
    rewrite (slice_lens_ints B HB) in B1. rewrite (slice_lens_ints C HC) in C1.
    assert (ES : lens (map flag (A ++ B ++ RList l :: C ++ D)) (map sels (A ++ B ++ RList l :: C ++ D)) = slice_lens A ++ length l :: slice_lens D).
    { rewrite !map_app. cbn [map]. rewrite !map_app. rewrite !lens_app by (rewrite !map_length; reflexivity). rewrite <- A1, <- B1. cbn [app]. f_equal.
      unfold lens at 1. cbn [flag is_int negb map keep sels]. f_equal. fold (lens (map flag C ++ map flag D) (map sels C ++ map sels D)).
      rewrite lens_app by (rewrite !map_length; reflexivity). rewrite <- C1, <- D1. reflexivity. }
    rewrite ES. split.
    + rewrite !slice_lens_app. rewrite (slice_lens_ints B HB). cbn [app]. unfold slice_lens at 2. cbn [flat_map app]. fold (slice_lens (C ++ D)). rewrite slice_lens_app, (slice_lens_ints C HC). cbn [app].
      apply insert_at_app. rewrite (slice_lens_length A HA). reflexivity.
    + intros idx HV. f_equal. unfold valid in HV. apply Forall2_app_inv_r in HV. destruct HV as (p & q & Hp & Hq & ->). inversion Hq as [|i ? q' ? Hi Hq']; subst.
      assert (LP : length p = length A) by (rewrite (valid_length _ _ Hp); apply slice_lens_length, HA).
      rewrite remove_at_app by (symmetry; exact LP). rewrite app_nth2, LP, Nat.sub_diag by lia. cbn [nth].
      rewrite (expand_app_slices A _ p q' i HA LP). rewrite (expand_app_ints B _ q' i HB).
      rewrite !map_app. cbn [map]. rewrite !map_app.
      rewrite (full_app (map flag A) (map sels A) _ _ p (i :: q')) by (rewrite ?map_length, <- ?A1, ?(slice_lens_length A HA); auto).
      f_equal; [apply A2; rewrite <- A1; exact Hp|].
      rewrite (full_app (map flag B) (map sels B) _ _ [] (i :: q')) by (rewrite ?map_length, <- ?B1; auto).
      f_equal; [rewrite <- (B2 [] i); [|rewrite <- B1; constructor]|].
      * clear -HB. induction HB as [|[j|l0|l0] B E0 HB IH]; try discriminate; cbn; [reflexivity|]. rewrite IH. reflexivity.
      * cbn [flag is_int negb sels full expand].
        assert (E2 : expand (C ++ D) q' i = full (map flag C ++ map flag D) (map sels C ++ map sels D) q').
        { rewrite (expand_app_ints C _ q' i HC). rewrite (full_app (map flag C) (map sels C) _ _ [] q') by (rewrite ?map_length, <- ?C1; auto).
          f_equal; [rewrite <- (C2 [] i); [|rewrite <- C1; constructor]|apply D2; rewrite <- D1; exact Hq'].
          clear -HC. induction HC as [|[j|l0|l0] C E0 HC IH]; try discriminate; cbn; [reflexivity|]. rewrite IH. reflexivity. }
        destruct l as [|x [|y l]]; cbn [length] in Hi; [lia| |cbn [nth]; rewrite E2; reflexivity].
        assert (i = 0) as -> by lia. cbn [nth]. rewrite E2. reflexivity.
Qed.

(* ---- putting back axes of length one, then removing them ---- *)
(* the number of bins selected on every axis *)
Definition counts (jss : list (list nat)) : list nat := map (@length nat) jss.
Definition one_if (fl : list bool) (jss : list (list nat)) : Prop := Forall2 (fun b js => b = false -> exists j, js = [j]) fl jss.
Lemma keep_length {A B} fl : forall (l : list A) (l' : list B), length l = length l' -> length (keep fl l) = length (keep fl l').
Proof. induction fl as [|[] fl IH]; intros [|x l] [|y l'] H; try discriminate; cbn; auto. Qed.
Lemma prod_lens fl : forall jss, one_if fl jss -> prod (lens fl jss) = prod (counts jss).
Proof.
  unfold lens, counts. intros jss H. induction H as [|b js fl jss H0 H IH]; [reflexivity|]. cbn [map keep]. unfold prod in *. destruct b; cbn [fold_right].
  - rewrite IH. reflexivity.
  - rewrite IH. destruct (H0 eq_refl) as [j ->]. cbn [length]. lia.
Qed.
Lemma ravel_lens fl : forall jss idx, one_if fl jss -> valid (counts jss) idx -> valid (lens fl jss) (keep fl idx) /\ ravel (counts jss) idx = ravel (lens fl jss) (keep fl idx).
Proof.
  unfold lens, counts. intros jss idx H. revert idx. induction H as [|b js fl jss H0 H IH]; intros idx HV; inversion HV as [|i ? idx' ? Hi HV']; subst; cbn [map keep]; [split; [constructor|reflexivity]|].
  destruct (IH idx' HV') as [I1 I2]. destruct b; cbn [map keep ravel].
  - split; [constructor; assumption|]. rewrite I2. f_equal. f_equal. symmetry. apply (prod_lens fl jss H).
  - split; [exact I1|]. destruct (H0 eq_refl) as [j ->]. cbn [length] in Hi. assert (i = 0) as -> by lia. cbn [Nat.mul Nat.add]. exact I2.
Qed.
Lemma reshape_counts {V} (d : arr V) fl jss (g : list nat -> V) : one_if fl jss -> shape d = lens fl jss ->
  (forall idx, valid (lens fl jss) idx -> cell d idx = g idx) ->
  exists d', (if shape_eqb (shape d) (counts jss) then Ok d else reshape d (counts jss)) = Ok d' /\ shape d' = counts jss /\
    (forall idx, valid (counts jss) idx -> cell d' idx = g (keep fl idx)) /\ forall idx, exists idx', cell d' idx = cell d idx'.
Proof.
  intros HO HS HC. destruct (shape_eqb (shape d) (counts jss)) eqn:E.
  - apply shape_eqb_eq in E. exists d. split; [reflexivity|]. split; [exact E|]. split; [|intros idx; exists idx; reflexivity]. intros idx HV. destruct (ravel_lens fl jss idx HO HV) as [L1 L2]. 
    assert (keep fl idx = idx) as ->.
    { rewrite HS in E. rewrite <- (unravel_ravel _ _ L1), <- L2, E. apply unravel_ravel, HV. }
    apply HC. rewrite <- HS, E. exact HV.
  - unfold reshape. rewrite HS, (prod_lens fl jss HO), Nat.eqb_refl. eexists. split; [reflexivity|]. cbn [shape cell]. split; [reflexivity|]. split; [|intros idx; eexists; reflexivity]. intros idx HV.
    destruct (ravel_lens fl jss idx HO HV) as [L1 L2]. rewrite L2, (unravel_ravel _ _ L1). apply HC, L1.
Qed.

(* zeros at the removed axes *)
Fixpoint spread (fl : list bool) (idx : list nat) : list nat :=
  match fl with [] => [] | true :: fl => match idx with i :: idx => i :: spread fl idx | [] => 0 :: spread fl [] end | false :: fl => 0 :: spread fl idx end.
Lemma keep_spread {A} fl : forall idx (l : list A), length l = length fl -> length idx = length (keep fl l) -> keep fl (spread fl idx) = idx.
Proof.
  induction fl as [|b fl IH]; intros idx [|x l] HL HI; try discriminate; [destruct idx; [reflexivity|discriminate]|]. destruct b; cbn [keep] in HI.
  - destruct idx as [|i idx]; [discriminate|]. cbn [spread keep]. rewrite (IH idx l); [reflexivity|cbn in HL; lia|cbn in HI; lia].
  - cbn [spread keep]. apply (IH idx l); [cbn in HL; lia|exact HI].
Qed.
Lemma valid_spread fl jss idx : one_if fl jss -> valid (lens fl jss) idx -> valid (counts jss) (spread fl idx).
Proof.
  unfold lens, counts. intros H. revert idx. induction H as [|b js fl jss H0 H IH]; intros idx HV; cbn [map keep spread] in *; [constructor|]. destruct b.
  - inversion HV as [|i ? idx' ? Hi HV']; subst. constructor; [exact Hi|apply IH, HV'].
  - destruct (H0 eq_refl) as [j ->]. constructor; [cbn; lia|apply IH, HV].
Qed.
Lemma keep_In {A} fl : forall (l : list A) x, In x (keep fl l) -> In x l.
Proof. induction fl as [|[] fl IH]; intros [|y l] x H; cbn in *; try contradiction; [destruct H as [H|H]; auto|auto]. Qed.
Lemma NoDup_keep {A} fl : forall (l : list A), NoDup l -> NoDup (keep fl l).
Proof.
  induction fl as [|b fl IH]; intros [|x l] H; cbn [keep]; try constructor. inversion H as [|? ? N1 N2]; subst. destruct b; [constructor|]; auto. intros HI. apply N1. eapply keep_In, HI.
Qed.

Lemma app_inj_len {A} (a b c d : list A) : a ++ b = c ++ d -> length a = length c -> a = c /\ b = d.
Proof. revert c. induction a as [|x a IH]; intros [|y c] H HL; try discriminate; [auto|]. cbn in H. injection H as -> H. destruct (IH c H) as [-> ->]; auto. Qed.
Lemma squeeze_ok s P d D eP e eD cP c cD : wf s -> dims s = P ++ d :: D -> edges s = eP ++ e :: eD -> coords s = cP ++ c :: cD ->
  length eP = length P -> length cP = length P -> length c = 1 -> P ++ D <> [] ->
  exists t, squeeze s d = Ok t /\ wf t /\ dims t = P ++ D /\ edges t = eP ++ eD /\ coords t = cP ++ cD /\ vars t = vars s /\ fts t = fts s /\ attrs t = attrs s /\
    (forall p r, length p = length P -> cell (data t) (p ++ r) = cell (data s) (p ++ 0 :: r) /\ cell (mask t) (p ++ r) = cell (mask s) (p ++ 0 :: r)).
Proof.
  intros W ED EE EC LE LC L1 HN. unfold squeeze. rewrite (position_nth d (dims s) (length P) (wf_names s W)) by (rewrite ED, nth_error_app2, Nat.sub_diag by lia; reflexivity).
  rewrite EC. rewrite app_nth2, LC, Nat.sub_diag by lia. cbn [nth]. rewrite L1. cbn [Nat.eqb negb].
  rewrite ED, app_length. cbn [length]. destruct (Nat.eqb_spec (length P + S (length D)) 1) as [H1|_].
  { exfalso. apply HN. destruct P, D; try reflexivity; cbn in H1; lia. }
  rewrite !remove_at_app by auto. rewrite EE, remove_at_app by auto. unfold construct_direct. cbn [shape].
  rewrite (wf_data s W), (wf_mask s W), EC. rewrite !map_app. cbn [map]. rewrite !remove_at_app by (rewrite map_length; auto).
  rewrite !shape_eqb_refl. cbn [rbind].
  eexists. split; [reflexivity|]. cbn [dims edges coords vars fts attrs data mask cell]. split.
  { pose proof (wf_bins s W) as WB. rewrite EE, EC in WB. apply Forall2_app_inv_l in WB. destruct WB as (e1 & e2 & WB1 & WB2 & EQ).
    assert (length cP = length e1) by (clear -WB1; induction WB1; cbn; congruence).
    destruct (app_inj_len _ _ _ _ EQ) as [<- <-]; [congruence|].
    inversion WB2; subst.
    constructor; cbn [dims edges coords data mask shape cell vars].
    - rewrite !app_length. pose proof (wf_edges s W) as Q. rewrite EE, ED, !app_length in Q. cbn [length] in Q. lia.
    - rewrite !app_length. pose proof (wf_coords s W) as Q. rewrite EC, ED, !app_length in Q. cbn [length] in Q. lia.
    - apply Forall2_app; assumption.
    - rewrite map_app. reflexivity.
    - rewrite map_app. reflexivity.
    - intros idx. apply (wf_rows s W).
    - pose proof (wf_names s W) as Q. rewrite ED in Q. apply NoDup_remove_1 in Q. exact Q. }
  repeat (split; [reflexivity|]). intros p r Hp. rewrite !insert_at_app by (symmetry; exact Hp). split; reflexivity.
Qed.
Lemma squeezes_ok fl : forall s P D eP eD cP cD, wf s -> dims s = P ++ D -> edges s = eP ++ eD -> coords s = cP ++ cD ->
  length eP = length P -> length cP = length P -> length D = length fl -> length eD = length fl -> length cD = length fl ->
  Forall2 (fun b (c : list Qc) => b = false -> length c = 1) fl cD -> (P <> [] \/ In true fl) ->
  exists t, squeezes s (keep (map negb fl) D) = Ok t /\ wf t /\ dims t = P ++ keep fl D /\ edges t = eP ++ keep fl eD /\ coords t = cP ++ keep fl cD /\
    vars t = vars s /\ fts t = fts s /\ attrs t = attrs s /\
    (forall p r, length p = length P -> length r = length (keep fl D) -> cell (data t) (p ++ r) = cell (data s) (p ++ spread fl r) /\ cell (mask t) (p ++ r) = cell (mask s) (p ++ spread fl r)).
Proof.
  induction fl as [|b fl IH]; intros s P D eP eD cP cD W ED EE EC LE LC L1 L2 L3 HF HN.
  - destruct D, eD, cD; try discriminate. exists s. cbn [map keep squeezes]. repeat (split; [first [reflexivity|assumption]|]). intros p r Hp Hr. destruct r; [|discriminate]. split; reflexivity.
  - destruct D as [|d D], eD as [|e eD], cD as [|c cD]; try discriminate. inversion HF as [|? ? ? ? F1 F2]; subst. cbn in L1, L2, L3.
    destruct b; cbn [map negb keep].
    + destruct (IH s (P ++ [d]) D (eP ++ [e]) eD (cP ++ [c]) cD) as (t & E & Wt & T1 & T2 & T3 & T4 & T5 & T6 & T7); auto; try lia; try (rewrite <- app_assoc; assumption); try (rewrite !app_length; cbn; lia).
      { left. destruct P; discriminate. }
      exists t. rewrite <- app_assoc in T1, T2, T3. cbn [app] in T1, T2, T3. repeat (split; [assumption|]). intros p r Hp Hr. destruct r as [|i r]; [discriminate|]. cbn [spread].
      specialize (T7 (p ++ [i]) r). rewrite <- !app_assoc in T7. cbn [app] in T7. apply T7; [rewrite !app_length; cbn; lia|cbn in Hr; lia].
    + assert (HN' : P ++ D <> []).
      { destruct HN as [H|H]; [destruct P; [congruence|discriminate]|]. destruct H as [H|H]; [discriminate|]. destruct D; [destruct fl; [destruct H|discriminate]|]. intros E. destruct P; discriminate. }
      destruct (squeeze_ok s P d D eP e eD cP c cD W ED EE EC LE LC (F1 eq_refl) HN') as (t0 & E0 & W0 & S1 & S2 & S3 & S4 & S5 & S6 & S7).
      destruct (IH t0 P D eP eD cP cD) as (t & E & Wt & T1 & T2 & T3 & T4 & T5 & T6 & T7); auto; try lia.
      { destruct HN as [H|H]; [left; exact H|]. destruct H as [H|H]; [discriminate|right; exact H]. }
      exists t. cbn [squeezes]. rewrite E0. cbn [rbind]. split; [exact E|]. split; [exact Wt|]. split; [exact T1|]. split; [exact T2|]. split; [exact T3|].
      split; [congruence|]. split; [congruence|]. split; [congruence|]. intros p r Hp Hr. cbn [spread].
      destruct (T7 p r Hp Hr) as [-> ->]. apply S7, Hp.
Qed.

(* ---- plain keys ---- *)
Definition kind (r : rkey) : bool * bool := (is_list r, is_slice r).
Definition kkind (k : subkey) : bool * bool := (is_klist k, is_kslice k).
Lemma map_kind rs ks : map is_list rs = map is_klist ks -> map is_slice rs = map is_kslice ks -> map kind rs = map kkind ks.
Proof. revert ks. induction rs as [|r rs IH]; intros [|k ks] H1 H2; try discriminate; [reflexivity|]. cbn [map] in *. injection H1 as E1 H1. injection H2 as E2 H2. unfold kind at 1, kkind at 1. rewrite E1, E2, (IH ks H1 H2). reflexivity. Qed.
Lemma Forall_kind (Pk : subkey -> Prop) (Pr : rkey -> Prop) : (forall k r, kind r = kkind k -> Pk k -> Pr r) -> forall rs ks, map kind rs = map kkind ks -> Forall Pk ks -> Forall Pr rs.
Proof. intros H. induction rs as [|r rs IH]; intros [|k ks] E HF; try discriminate; [constructor|]. cbn [map] in E. injection E as E1 E2. inversion HF; subst. constructor; [|eapply IH; eassumption]. apply (H k); [unfold kind, kkind; congruence|assumption]. Qed.
Lemma plain_rplain rs sh ks : map is_list rs = map is_klist (padded sh ks) -> map is_slice rs = map is_kslice (padded sh ks) -> plain ks -> rplain rs.
Proof.
  intros H1 H2 HP. pose proof (map_kind _ _ H1 H2) as E. clear H1 H2. unfold padded in E. set (pad := repeat _ _) in E.
  assert (HPad : Forall (fun k => is_kslice k = true) pad) by (apply Forall_forall; intros k Hk; apply repeat_spec in Hk; subst; reflexivity).
  destruct HP as [HP|(A & B & l & C & D & -> & HA & HB & HC & HD)].
  - left. revert E. assert (HF : Forall (fun k => is_klist k = false) (ks ++ pad)).
    { apply Forall_app. split; [exact HP|]. revert HPad. apply Forall_impl. intros [| |]; cbn; congruence. }
    intros E. apply (Forall_kind (fun k => is_klist k = false) (fun r => is_list r = false)) with (2 := E); [|exact HF]. unfold kind, kkind. intros k r Q. injection Q as -> _. auto.
  - right. rewrite <- !app_assoc in E. cbn [app] in E. rewrite <- !app_assoc in E. rewrite map_app in E. symmetry in E. apply eq_sym, map_eq_app in E. destruct E as (rA & r1 & -> & EA & E1).
    rewrite map_app in E1. apply map_eq_app in E1. destruct E1 as (rB & r2 & -> & EB & E2). cbn [map] in E2. destruct r2 as [|r r2]; [discriminate|]. cbn [map] in E2. injection E2 as E0 E0' E3.
    rewrite map_app in E3. apply map_eq_app in E3. destruct E3 as (rC & rD & -> & EC & ED). destruct r as [j|l'|l']; try discriminate.
    assert (GS : forall k r, kind r = kkind k -> is_kslice k = true -> is_slice r = true) by (unfold kind, kkind; intros k r Q; injection Q as _ ->; auto).
    assert (GI : forall k r, kind r = kkind k -> is_kint k = true -> is_int r = true).
    { intros [i| |] r Q HI; try discriminate. destruct r; cbv in Q; [reflexivity|discriminate|discriminate]. }
    exists rA, rB, l', rC, rD. split; [reflexivity|].
    split; [exact (Forall_kind _ _ GS _ _ EA HA)|]. split; [exact (Forall_kind _ _ GI _ _ EB HB)|]. split; [exact (Forall_kind _ _ GI _ _ EC HC)|].
    apply (Forall_kind _ _ GS _ _ ED). apply Forall_app. split; assumption.
Qed.

(* ---- edges ---- *)
Lemma last_lt n js : js <> [] -> Forall (fun j => j < n) js -> last js 0 < n.
Proof. intros HN HF. rewrite Forall_forall in HF. apply HF. destruct (exists_last HN) as (l & x & ->). rewrite last_last. apply in_or_app. right. left. reflexivity. Qed.
Lemma last_map_of_nat js : last (map Z.of_nat js) 0%Z = Z.of_nat (last js 0).
Proof. induction js as [|x [|y js] IH]; try reflexivity. exact IH. Qed.
Lemma slice_edges_ok e n js : length e = S n -> Forall (fun j => j < n) js -> slice_edges e (map Z.of_nat js) = Ok (chosen_edges e js).
Proof.
  intros HL HF. unfold slice_edges, chosen_edges. destruct js as [|j0 js0]; [cbn [map]|].
  - rewrite HL. cbn. reflexivity.
  - set (js := j0 :: js0) in *. assert (js <> []) as HN by discriminate.
    assert (forall A (a b : A), match map Z.of_nat js with [] => a | _ => b end = b) as HM by reflexivity. rewrite HM. clear HM.
    rewrite last_map_of_nat. replace (map Z.of_nat js ++ [(Z.of_nat (last js 0%nat) + 1)%Z]) with (map Z.of_nat (js ++ [S (last js 0%nat)])).
    + rewrite norms_spec; [reflexivity|]. rewrite HL. apply Forall_app. split; [revert HF; apply Forall_impl; intros; lia|]. constructor; [|constructor]. pose proof (last_lt n js HN HF). lia.
    + rewrite map_app. cbn [map]. f_equal. f_equal. lia.
Qed.
Lemma chosen_edges_length e js : length (chosen_edges e js) = S (length js).
Proof. unfold chosen_edges. destruct js; [reflexivity|]. rewrite map_length, app_length. cbn [length]. lia. Qed.
Lemma slice_edges_int e n i j : length e = S n -> j < n -> (i = Z.of_nat j \/ i = Z.of_nat j - Z.of_nat n)%Z -> exists x y, slice_edges e [i] = Ok [x; y].
Proof.
  intros HL Hj Hi. unfold slice_edges. cbn [last app]. unfold norms. cbn [map rall]. rewrite HL.
  assert (exists a, norm (S n) i = Some a) as [a ->].
  { destruct Hi as [->| ->]; [exists j; apply norm_spec; [lia|left; reflexivity]|exists (S j); apply norm_spec; [lia|right; lia]]. }
  assert (exists b, norm (S n) (i + 1) = Some b) as [b ->].
  { destruct Hi as [->| ->]; [exists (S j); apply norm_spec; [lia|left; lia]|]. destruct (Nat.eq_dec j (n - 1)) as [->|]; [exists 0; apply norm_spec; [lia|left; lia]|exists (S (S j)); apply norm_spec; [lia|right; lia]]. }
  cbn. eauto.
Qed.
Definition chosen (es : list (list Qc)) (jss : list (list nat)) : list (list Qc) := map (fun p => chosen_edges (fst p) (snd p)) (combine es jss).
Lemma key_indices_ok sh ks fl jss : wants sh ks fl jss -> forall es, Forall2 (fun n (e : list Qc) => length e = S n) sh es ->
  exists ind es', key_indices sh ks = Ok ind /\ rall (map (fun ei => slice_edges (fst ei) (snd ei)) (combine es ind)) = Ok es' /\
    Forall2 (fun js (e' : list Qc) => length e' = S (length js)) jss es' /\ keep fl es' = keep fl (chosen es jss) /\ one_if fl jss.
Proof.
  induction 1 as [|n sh fl jss H IH|n sh k ks b fl js jss H0 H IH]; intros es HE; inversion HE as [|? e ? es0 E1 E2]; subst.
  - exists [], []. repeat split; constructor.
  - destruct (IH es0 E2) as (ind & es' & I1 & I2 & I3 & I4 & I5). exists (map Z.of_nat (seq 0 n) :: ind), (chosen_edges e (seq 0 n) :: es').
    cbn [key_indices tl rbind combine map rall fst snd]. rewrite I1. cbn [rbind]. rewrite (slice_edges_ok e n _ E1 (seq_lt n)). cbn [rbind]. rewrite I2. split; [reflexivity|]. split; [reflexivity|].
    split; [constructor; [apply chosen_edges_length|exact I3]|]. split; [unfold chosen; cbn [combine map keep fst snd]; f_equal; exact I4|]. constructor; [discriminate|exact I5].
  - destruct (IH es0 E2) as (ind & es' & I1 & I2 & I3 & I4 & I5). pose proof (wanted_lt _ _ _ _ H0) as HF.
    destruct H0 as [i j Hj Hi|js HF'|a b c x y z js HS HR]; cbn [key_indices tl rbind].
    + destruct (slice_edges_int e n i j E1 Hj Hi) as (x & y & Exy). exists ([i] :: ind), ([x; y] :: es'). rewrite I1. cbn [rbind combine map rall fst snd]. rewrite Exy. cbn [rbind]. rewrite I2.
      repeat (split; [reflexivity|]). split; [constructor; [reflexivity|exact I3]|]. split; [exact I4|]. constructor; [intros _; exists j; reflexivity|exact I5].
    + exists (map Z.of_nat js :: ind), (chosen_edges e js :: es'). rewrite I1. cbn [rbind combine map rall fst snd]. rewrite (slice_edges_ok e n _ E1 HF). cbn [rbind]. rewrite I2.
      repeat (split; [reflexivity|]). split; [constructor; [apply chosen_edges_length|exact I3]|]. split; [unfold chosen; cbn [combine map keep fst snd]; f_equal; exact I4|]. constructor; [discriminate|exact I5].
    + exists (map Z.of_nat js :: ind), (chosen_edges e js :: es'). unfold slice_list. rewrite HS. cbn [rbind]. rewrite <- HR, I1. cbn [rbind combine map rall fst snd]. rewrite (slice_edges_ok e n _ E1 HF). cbn [rbind]. rewrite I2.
      repeat (split; [reflexivity|]). split; [constructor; [apply chosen_edges_length|exact I3]|]. split; [unfold chosen; cbn [combine map keep fst snd]; f_equal; exact I4|]. constructor; [discriminate|exact I5].
Qed.
Lemma int_dims_ok sh ks fl jss : wants sh ks fl jss -> forall ds, length ds = length sh -> int_dims ds ks = keep (map negb fl) ds.
Proof.
  unfold int_dims. induction 1 as [|n sh fl jss H IH|n sh k ks b fl js jss H0 H IH]; intros [|d ds] HL; try discriminate; [reflexivity| |].
  - cbn [combine flat_map map negb keep]. rewrite <- IH by (cbn in HL; lia). destruct ds; reflexivity.
  - cbn [combine flat_map map keep snd fst]. rewrite IH by (cbn in HL; lia). destruct H0; reflexivity.
Qed.
Lemma keep_all_length {A} fl : forall l : list A, length l = length fl -> length (keep (map negb fl) l) = length l -> ~ In true fl.
Proof.
  assert (G : forall fl (l : list A), length (keep fl l) <= length l) by (induction fl0 as [|[] fl0 IH]; intros [|x l]; cbn; try lia; specialize (IH l); lia).
  induction fl as [|b fl IH]; intros [|x l] HL HK; try discriminate; [intros []|]. cbn [map keep] in HK. destruct b; cbn [negb] in HK.
  - specialize (G (map negb fl) l). cbn in HK. lia.
  - intros [H|H]; [discriminate|]. apply (IH l); [cbn in HL; lia|cbn in HK; lia|exact H].
Qed.
Lemma map_keep {A B} (f : A -> B) fl : forall l, map f (keep fl l) = keep fl (map f l).
Proof. induction fl as [|[] fl IH]; intros [|x l]; cbn; auto. rewrite IH. reflexivity. Qed.
Lemma full_spread fl : forall jss idx, one_if fl jss -> valid (lens fl jss) idx -> full fl jss (keep fl (spread fl idx)) = full fl jss idx.
Proof.
  intros jss idx HO HV. rewrite (keep_spread fl idx (counts jss)); [reflexivity| |apply (valid_length _ _ HV)]. unfold counts. rewrite map_length. clear -HO. induction HO; cbn; congruence.
Qed.

(* finalize *)
Lemma finalize_ok s vs d m ind es' fl jss gd gm : wf s -> length jss = length (dims s) ->
  rall (map (fun ei => slice_edges (fst ei) (snd ei)) (combine (edges s) ind)) = Ok es' ->
  Forall2 (fun js (e' : list Qc) => length e' = S (length js)) jss es' -> one_if fl jss ->
  shape d = lens fl jss -> (forall idx, valid (lens fl jss) idx -> cell d idx = gd idx) ->
  shape m = lens fl jss -> (forall idx, valid (lens fl jss) idx -> cell m idx = gm idx) ->
  (forall idx, length (cell d idx) = length vs) ->
  exists t, finalize s vs d m ind = Ok t /\ wf t /\ dims t = dims s /\ edges t = es' /\ coords t = map mid es' /\ vars t = vs /\ fts t = fts s /\ attrs t = attrs s /\
    sshape t = counts jss /\
    forall idx, valid (counts jss) idx -> cell (data t) idx = gd (keep fl idx) /\ cell (mask t) idx = gm (keep fl idx).
Proof.
  intros W LJ EE HE HO S1 C1 S2 C2 HR. unfold finalize. rewrite EE. cbn [rbind]. unfold construct_direct.
  assert (map (@length Qc) (map mid es') = counts jss) as EC.
  { unfold counts. clear -HE. induction HE as [|js e' jss es H0 H IH]; [reflexivity|]. cbn [map]. rewrite IH, mid_length, H0. f_equal. lia. }
  rewrite EC. destruct (reshape_counts d fl jss gd HO S1 C1) as (d' & -> & D1 & D2 & D3). cbn [rbind].
  destruct (reshape_counts m fl jss gm HO S2 C2) as (m' & -> & M1 & M2 & _). cbn [rbind].
  eexists. split; [reflexivity|]. cbn [dims edges coords vars fts attrs data mask]. 
  assert (LE : length es' = length jss) by (clear -HE; induction HE; cbn; congruence).
  split.
  { constructor; cbn [dims edges coords vars data mask].
    - congruence.
    - rewrite map_length. congruence.
    - clear -HE. induction HE as [|js e' jss es H0 H IH]; cbn [map]; constructor; auto. rewrite mid_length. lia.
    - rewrite EC. exact D1.
    - rewrite EC. exact M1.
    - intros idx. destruct (D3 idx) as [idx' ->]. apply HR.
    - apply (wf_names s W). }
  repeat (split; [reflexivity|]). split; [exact EC|]. intros idx HV. split; [apply D2, HV|apply M2, HV].
Qed.

Lemma keep_true {A} (l : list A) : keep (map (fun _ => true) l) l = l.
Proof. induction l; cbn; congruence. Qed.
Lemma wf_bins_shape s : wf s -> Forall2 (fun n (e : list Qc) => length e = S n) (sshape s) (edges s).
Proof. intros W. unfold sshape. pose proof (wf_bins s W) as H. induction H; cbn; constructor; auto. Qed.
Lemma sshape_length s : wf s -> length (sshape s) = length (dims s).
Proof. intros W. unfold sshape. rewrite map_length. apply (wf_coords s W). Qed.

Lemma index_from_cells {V} (a : arr V) rs d : index_from a rs = Ok d -> forall idx, exists idx', cell d idx = cell a idx'.
Proof.
  unfold index_from. intros H idx. destruct (existsb is_list rs); [destruct (broadcast rs); [destruct (together rs)|discriminate]|]; injection H as <-; cbn [cell]; eexists; reflexivity.
Qed.
Lemma getitem_ok s ks fl jss : wf s -> wants (sshape s) ks fl jss -> plain ks -> In true fl ->
  exists t, getitem s ks = Ok t /\ wf t /\ dims t = keep fl (dims s) /\ vars t = vars s /\ fts t = fts s /\ attrs t = attrs s /\
    edges t = keep fl (chosen (edges s) jss) /\ coords t = map mid (edges t) /\ sshape t = lens fl jss /\
    forall idx, valid (lens fl jss) idx -> cell (data t) idx = cell (data s) (full fl jss idx) /\ cell (mask t) idx = cell (mask s) (full fl jss idx).
Proof.
  intros W HW HP HT. destruct (wants_length _ _ _ _ HW) as (L1 & L2 & L3). pose proof (sshape_length s W) as LS. unfold getitem.
  destruct (Nat.ltb_spec (length (dims s)) (length ks)) as [|_]; [lia|].
  destruct (key_indices_ok _ _ _ _ HW (edges s) (wf_bins_shape s W)) as (ind & es' & -> & K2 & K3 & K4 & K5). cbn [rbind].
  rewrite (int_dims_ok _ _ _ _ HW (dims s)) by lia.
  destruct (Nat.eqb_spec (length (keep (map negb fl) (dims s))) (length (dims s))) as [HX|_].
  { exfalso. apply (keep_all_length fl (dims s)) in HX; [exact (HX HT)|lia]. }
  destruct (resolve_wants _ _ _ _ HW) as (rs & R1 & R2 & R3 & R4).
  destruct (agree_funct fl jss rs ltac:(lia) R2) as [EF EJ]. pose proof (plain_rplain rs _ _ R3 R4 HP) as RP.
  assert (NI : forall V (a : arr V), shape a = sshape s -> numpy_index a ks = index_from a rs).
  { intros V a EA. unfold numpy_index. rewrite EA. destruct (Nat.ltb_spec (length (sshape s)) (length ks)) as [|_]; [lia|]. fold (padded (sshape s) ks). rewrite R1. reflexivity. }
  rewrite (NI _ (data s) (wf_data s W)), (NI _ (mask s) (wf_mask s W)).
  destruct (index_from_ok (data s) rs RP) as (d & X1 & D1 & D2). rewrite X1. destruct (index_from_ok (mask s) rs RP) as (m & -> & M1 & M2). cbn [rbind].
  rewrite <- EF, <- EJ in D1, D2, M1, M2.
  destruct (finalize_ok s (vars s) d m ind es' fl jss (fun idx => cell (data s) (full fl jss idx)) (fun idx => cell (mask s) (full fl jss idx)) W ltac:(lia) K2 K3 K5 D1 D2 M1 M2) as (t0 & E0 & W0 & T1 & T2 & T3 & T4 & T5 & T6 & T7 & T8).
  { intros idx. destruct (index_from_cells _ _ _ X1 idx) as [i' ->]. apply (wf_rows s W). }
  rewrite E0. cbn [rbind].
  assert (LE : length es' = length jss) by (clear -K3; induction K3; cbn; congruence).
  destruct (squeezes_ok fl t0 [] (dims s) [] es' [] (map mid es') W0 T1 T2 T3 eq_refl eq_refl) as (t & E & Wt & Q1 & Q2 & Q3 & Q4 & Q5 & Q6 & Q7); try lia; [rewrite map_length; lia| |right; exact HT|].
  { clear -K3 K5. revert es' K3. induction K5 as [|b js fl jss H0 H IH]; intros es' K3; inversion K3; subst; cbn [map]; constructor; auto. intros HB. destruct (H0 HB) as [j ->]. rewrite mid_length. cbn [length] in *. lia. }
  rewrite E. exists t. split; [reflexivity|]. split; [exact Wt|]. cbn [app] in Q1, Q2, Q3. split; [exact Q1|]. split; [congruence|]. split; [congruence|]. split; [congruence|].
  split; [rewrite Q2; exact K4|]. split; [rewrite Q3, Q2, map_keep; reflexivity|].
  assert (ST : sshape t = lens fl jss).
  { unfold sshape. rewrite Q3, map_keep. fold (sshape t0). unfold lens. f_equal. fold (counts jss). rewrite <- T7. unfold sshape. rewrite T3. reflexivity. }
  split; [exact ST|]. intros idx HV. destruct (Q7 [] idx eq_refl) as [C1 C2].
  { rewrite (valid_length _ _ HV). unfold lens. apply keep_length. rewrite map_length. lia. }
  cbn [app] in C1, C2. rewrite C1, C2. destruct (T8 (spread fl idx) (valid_spread fl jss idx K5 HV)) as [-> ->]. rewrite (full_spread fl jss idx K5 HV). split; reflexivity.
Qed.

(* ---- take ---- *)
From Coq Require Import Sorting.Sorted.
Lemma nonzero_from l : forall k, let r := flat_map (fun kb : nat * bool => if snd kb then [fst kb] else []) (combine (seq k (length l)) l) in
  StronglySorted lt r /\ Forall (fun j => k <= j) r /\ forall j, In j r <-> k <= j /\ nth (j - k) l false = true.
Proof.
  induction l as [|b l IH]; intros k r; subst r; cbn [length seq combine flat_map].
  - repeat split; try constructor; try contradiction. intros [_ H]. destruct (j - k); discriminate.
  - destruct (IH (S k)) as (I1 & I2 & I3). cbn [fst snd].
    assert (HI : forall j, In j (flat_map (fun kb : nat * bool => if snd kb then [fst kb] else []) (combine (seq (S k) (length l)) l)) <-> S k <= j /\ nth (j - k) (b :: l) false = true).
    { intros j. rewrite I3. split; intros [H1 H2]; (split; [exact H1|]); replace (j - k) with (S (j - S k)) in * by lia; exact H2. }
    destruct b; cbn [app].
    + split; [constructor; [exact I1|revert I2; apply Forall_impl; intros; lia]|]. split; [constructor; [lia|revert I2; apply Forall_impl; intros; lia]|].
      intros j. cbn [In]. rewrite HI. split.
      * intros [<-|[H1 H2]]; [split; [lia|rewrite Nat.sub_diag; reflexivity]|split; [lia|exact H2]].
      * intros [H1 H2]. destruct (Nat.eq_dec k j) as [|N]; [left; assumption|right; split; [lia|exact H2]].
    + split; [exact I1|]. split; [revert I2; apply Forall_impl; intros; lia|]. intros j. rewrite HI. split; intros [H1 H2].
      * split; [lia|exact H2].
      * split; [|exact H2]. destruct (Nat.eq_dec k j) as [<-|N]; [rewrite Nat.sub_diag in H2; discriminate|lia].
Qed.
Lemma nonzero_spec l : StronglySorted lt (nonzero l) /\ forall j, In j (nonzero l) <-> nth j l false = true.
Proof.
  destruct (nonzero_from l 0) as (H1 & _ & H3). split; [exact H1|]. intros j. unfold nonzero. rewrite H3. rewrite Nat.sub_0_r. split; [intros [_ H]; exact H|intros H; split; [lia|exact H]].
Qed.
Lemma and_lists_nth a b j : length a = length b -> nth j (and_lists a b) false = nth j a false && nth j b false.
Proof.
  unfold and_lists. revert b j. induction a as [|x a IH]; intros [|y b] j HL; try discriminate; [destruct j; reflexivity|]. destruct j; cbn; [reflexivity|]. apply IH. cbn in HL. lia.
Qed.
Lemma and_lists_length a b : length a = length b -> length (and_lists a b) = length a.
Proof. intros H. unfold and_lists. rewrite map_length, combine_length. lia. Qed.
Lemma norm_range n z : (- Z.of_nat n <= z < Z.of_nat n)%Z -> exists j, norm n z = Some j /\ j < n /\ (z = Z.of_nat j \/ z = Z.of_nat j - Z.of_nat n)%Z.
Proof.
  intros H. destruct (Z_lt_le_dec z 0) as [Hz|Hz].
  - exists (Z.to_nat (z + Z.of_nat n)). split; [apply norm_spec; lia|lia].
  - exists (Z.to_nat z). split; [apply norm_spec; lia|lia].
Qed.
Lemma put_mask_ok n l : Forall (fun z => - Z.of_nat n <= z < Z.of_nat n)%Z l ->
  exists m, put_mask n l = Ok m /\ length m = n /\ forall j, j < n -> (nth j m false = true <-> picks n (PIdx l) j).
Proof.
  intros H. unfold put_mask, norms.
  destruct (rall_map_ok (fun i => match norm n i with Some k => Ok k | None => Err IndexError end) (fun z j => j < n /\ (z = Z.of_nat j \/ z = Z.of_nat j - Z.of_nat n)%Z) l) as (ks & -> & HK).
  { intros z Hz. rewrite Forall_forall in H. destruct (norm_range n z (H z Hz)) as (j & -> & Hj). exists j. split; [reflexivity|exact Hj]. }
  cbn [rbind]. eexists. split; [reflexivity|]. split; [rewrite map_length, seq_length; reflexivity|]. intros j Hj.
  rewrite (nth_error_nth _ j false (x := existsb (Nat.eqb j) ks)) by (rewrite nth_error_map', nth_error_seq; destruct (Nat.ltb_spec j n); [reflexivity|lia]).
  cbn [picks]. rewrite existsb_exists. clear H. split.
  - intros (k & Hk & Ek). apply Nat.eqb_eq in Ek. subst k. apply In_nth_error in Hk. destruct Hk as [i Hi].
    assert (G : exists z, nth_error l i = Some z /\ (z = Z.of_nat j \/ z = Z.of_nat j - Z.of_nat n)%Z).
    { clear -HK Hi. revert i Hi. induction HK as [|z k l ks [_ H0] H IH]; intros [|i] Hi; try discriminate; cbn in Hi; [injection Hi as ->; exists z; auto|apply (IH i Hi)]. }
    destruct G as (z & Ez & Hz). exists z. split; [eapply nth_error_In, Ez|exact Hz].
  - intros (z & Hz & E). apply In_nth_error in Hz. destruct Hz as [i Hi]. destruct (Forall2_nth _ _ _ _ _ HK Hi) as (k & Ek & Lk & E'). exists k. split; [eapply nth_error_In, Ek|]. apply Nat.eqb_eq. lia.
Qed.
Lemma apply_picks_ok s ps : NoDup (dims s) -> length (sshape s) = length (dims s) -> forall sel, length sel = length (dims s) ->
  (forall i, i < length (dims s) -> length (nth i sel []) = nth i (sshape s) 0) ->
  (forall d p, In (d, p) ps -> exists i, nth_error (dims s) i = Some d /\ pick_ok (nth i (sshape s) 0) p) ->
  exists sel', apply_picks s sel ps = Ok sel' /\ length sel' = length (dims s) /\
    (forall i, i < length (dims s) -> length (nth i sel' []) = nth i (sshape s) 0) /\
    forall i j, i < length (dims s) -> j < nth i (sshape s) 0 ->
      (nth j (nth i sel' []) false = true <-> nth j (nth i sel []) false = true /\ forall d p, In (d, p) ps -> nth_error (dims s) i = Some d -> picks (nth i (sshape s) 0) p j).
Proof.
  intros ND LS. induction ps as [|[d p] ps IH]; intros sel L1 L2 HP.
  - exists sel. split; [reflexivity|]. split; [exact L1|]. split; [exact L2|]. intros i j Hi Hj. split; [intros H; split; [exact H|intros ? ? []]|tauto].
  - destruct (HP d p (or_introl eq_refl)) as (i0 & Ed & Hp). assert (Li0 : i0 < length (dims s)) by (apply nth_error_Some; congruence).
    cbn [apply_picks]. rewrite (position_nth d (dims s) i0 ND Ed).
    set (n := nth i0 (sshape s) 0) in *.
    assert (exists m, (match p with PMask l => if length l =? n then Ok l else Err ValueError | PIdx l => put_mask n l end) = Ok m /\ length m = n /\
              forall j, j < n -> (nth j m false = true <-> picks n p j)) as (m & -> & M1 & M2).
    { destruct p as [l|l]; cbn [pick_ok] in Hp; [rewrite Hp, Nat.eqb_refl; exists l; split; [reflexivity|]; split; [exact Hp|intros; reflexivity]|apply put_mask_ok, Hp]. }
    cbn [rbind]. 
    assert (LA : length (nth i0 sel []) = length m) by (rewrite L2 by exact Li0; symmetry; exact M1).
    assert (NI : nth i0 (replace_nth sel i0 (and_lists (nth i0 sel []) m)) [] = and_lists (nth i0 sel []) m) by (apply replace_nth_eq; lia).
    assert (NE : forall i, i <> i0 -> nth i (replace_nth sel i0 (and_lists (nth i0 sel []) m)) [] = nth i sel []) by (intros i Hi; apply replace_nth_neq, Hi).
    destruct (IH (replace_nth sel i0 (and_lists (nth i0 sel []) m))) as (sel' & E & S1 & S2 & S3).
    + rewrite replace_nth_length. exact L1.
    + intros i Hi. destruct (Nat.eq_dec i i0) as [->|N]; [rewrite NI, and_lists_length by exact LA; apply L2, Hi|rewrite NE by exact N; apply L2, Hi].
    + intros d' p' H. apply HP. right. exact H.
    + exists sel'. split; [exact E|]. split; [exact S1|]. split; [exact S2|]. intros i j Hi Hj. rewrite (S3 i j Hi Hj). destruct (Nat.eq_dec i i0) as [->|N].
      * rewrite NI, and_lists_nth by exact LA. rewrite andb_true_iff, (M2 j Hj). split.
        -- intros [[H1 H2] H3]. split; [exact H1|]. intros d' p' [H|H] Ed'; [injection H as <- <-; exact H2|apply (H3 d' p' H Ed')].
        -- intros [H1 H2]. split; [split; [exact H1|apply (H2 d p (or_introl eq_refl) Ed)]|]. intros d' p' H Ed'. apply (H2 d' p' (or_intror H) Ed').
      * rewrite NE by exact N. split; intros [H1 H2]; (split; [exact H1|]); intros d' p' H Ed'.
        -- destruct H as [H|H]; [|apply (H2 d' p' H Ed')]. injection H as <- <-. exfalso. apply N. rewrite NoDup_nth_error in ND. apply ND; [exact Hi|congruence].
        -- apply (H2 d' p' (or_intror H) Ed').
Qed.
Lemma all_indices_valid s : forall idx, In idx (all_indices s) <-> valid s idx.
Proof. intros idx. rewrite <- grid_valid. assert (all_indices s = grid s) as ->; [|reflexivity]. induction s as [|n s IH]; [reflexivity|]. cbn [all_indices grid]. rewrite flat_map_concat_map, IH. reflexivity. Qed.
Lemma all_but_spec s m i k : all_but s m i k = true <-> forall idx, valid s idx -> nth i idx 0 = k -> m idx = true.
Proof.
  unfold all_but. rewrite forallb_forall. split.
  - intros H idx HV E. specialize (H idx (proj2 (all_indices_valid s idx) HV)). rewrite E, Nat.eqb_refl in H. exact H.
  - intros H idx HI. apply all_indices_valid in HI. destruct (Nat.eqb_spec (nth i idx 0) k) as [E|]; [apply (H idx HI E)|reflexivity].
Qed.
Lemma full_true jss : forall idx, length idx = length jss -> full (map (fun _ => true) jss) jss idx = map (fun p => nth (fst p) (snd p) 0) (combine idx jss).
Proof. induction jss as [|js jss IH]; intros [|i idx] H; try discriminate; [reflexivity|]. cbn [map full combine fst snd]. rewrite IH by (cbn in H; lia). reflexivity. Qed.

Lemma rall_chosen sh es : Forall2 (fun n (e : list Qc) => length e = S n) sh es -> forall jss, Forall2 (fun n js => Forall (fun j => j < n) js) sh jss ->
  rall (map (fun ei => slice_edges (fst ei) (snd ei)) (combine es (map (map Z.of_nat) jss))) = Ok (chosen es jss).
Proof.
  unfold chosen. induction 1 as [|n e sh es H0 H IH]; intros jss HJ; inversion HJ; subst; [reflexivity|]. cbn [map combine fst snd rall].
  rewrite (slice_edges_ok e n) by assumption. cbn [rbind]. rewrite IH by assumption. reflexivity.
Qed.
Lemma take_ok s masks ps : wf s ->
  (forall d p, In (d, p) ps -> exists i, nth_error (dims s) i = Some d /\ pick_ok (nth i (sshape s) 0) p) ->
  exists t jss, take s masks ps = Ok t /\ wf t /\ length jss = length (dims s) /\
    (forall i, i < length (dims s) -> StronglySorted lt (nth i jss []) /\
       forall j, In j (nth i jss []) <-> j < nth i (sshape s) 0 /\
         (forall m idx, In m masks -> valid (sshape s) idx -> nth i idx 0 = j -> m idx = true) /\
         (forall d p, In (d, p) ps -> nth_error (dims s) i = Some d -> picks (nth i (sshape s) 0) p j)) /\
    dims t = dims s /\ vars t = vars s /\ fts t = fts s /\ attrs t = attrs s /\
    edges t = chosen (edges s) jss /\ coords t = map mid (edges t) /\ sshape t = counts jss /\
    forall idx, valid (counts jss) idx ->
      cell (data t) idx = cell (data s) (map (fun p => nth (fst p) (snd p) 0) (combine idx jss)) /\
      cell (mask t) idx = cell (mask s) (map (fun p => nth (fst p) (snd p) 0) (combine idx jss)).
Proof.
  intros W HP. unfold take. pose proof (sshape_length s W) as LS.
  set (m := fun idx => forallb (fun m : list nat -> bool => m idx) masks).
  set (start := map (fun i => map (all_but (sshape s) m i) (seq 0 (nth i (sshape s) 0))) (seq 0 (length (sshape s)))).
  assert (Hstart : forall i, i < length (dims s) -> nth i start [] = map (all_but (sshape s) m i) (seq 0 (nth i (sshape s) 0))).
  { intros i Hi. unfold start. apply nth_error_nth. rewrite nth_error_map', nth_error_seq. destruct (Nat.ltb_spec i (length (sshape s))); [reflexivity|lia]. }
  destruct (apply_picks_ok s ps (wf_names s W) LS start) as (sel & -> & S1 & S2 & S3); [unfold start; rewrite map_length, seq_length; exact LS| |exact HP|].
  { intros i Hi. rewrite (Hstart i Hi), map_length, seq_length. reflexivity. }
  cbn [rbind]. remember (map nonzero sel) as jss eqn:Ejss.
  assert (LJ : length jss = length (dims s)) by (rewrite Ejss, map_length; exact S1).
  assert (NJ : forall i, i < length (dims s) -> nth i jss [] = nonzero (nth i sel [])).
  { intros i Hi. rewrite Ejss. change (@nil nat) with (nonzero []) at 1. apply map_nth. }
  assert (HJ : Forall2 (fun n js => Forall (fun j => j < n) js) (sshape s) jss).
  { assert (HL : Forall2 (fun n (l : list bool) => length l = n) (sshape s) sel).
    { clear -S1 S2 LS. set (sh := sshape s) in *. clearbody sh. rewrite <- LS in *. clear LS. revert sel S1 S2. induction sh as [|n sh IH]; intros [|l sel] S1 S2; try discriminate; constructor.
      - apply (S2 0). cbn. lia.
      - apply IH; [cbn in S1; lia|]. intros i Hi. apply (S2 (S i)). cbn. lia. }
    rewrite Ejss. clear -HL. induction HL as [|n l sh sel H0 H IH]; cbn [map]; constructor; auto. apply Forall_forall. intros j Hj. destruct (nonzero_spec l) as [_ NZ]. apply NZ in Hj.
    destruct (Nat.ltb_spec j n); [assumption|]. rewrite nth_overflow in Hj by lia. discriminate. }
  assert (HE : rall (map (fun ei => slice_edges (fst ei) (snd ei)) (combine (edges s) (map (map Z.of_nat) jss))) = Ok (chosen (edges s) jss)).
  { apply (rall_chosen (sshape s)); [apply (wf_bins_shape s W)|exact HJ]. }
  assert (HL2 : Forall2 (fun js (e' : list Qc) => length e' = S (length js)) jss (chosen (edges s) jss)).
  { assert (length (edges s) = length jss) as LL by (rewrite (wf_edges s W); lia). unfold chosen. clear -LL. revert LL. generalize (edges s). induction jss as [|js jss IH]; intros [|e es] LL; try discriminate; cbn [combine map]; constructor; [apply chosen_edges_length|apply IH; cbn in LL; lia]. }
  assert (HO : one_if (map (fun _ => true) jss) jss) by (clear; induction jss; cbn [map]; constructor; auto; discriminate).
  assert (EL : lens (map (fun _ => true) jss) jss = counts jss) by (unfold lens, counts; clear; induction jss; cbn; congruence).
  destruct (finalize_ok s (vars s) (outer (data s) jss) (outer (mask s) jss) (map (map Z.of_nat) jss) (chosen (edges s) jss) (map (fun _ => true) jss) jss
     (fun idx => cell (data s) (map (fun p => nth (fst p) (snd p) 0) (combine idx jss))) (fun idx => cell (mask s) (map (fun p => nth (fst p) (snd p) 0) (combine idx jss))) W LJ HE HL2 HO)
    as (t & E & Wt & T1 & T2 & T3 & T4 & T5 & T6 & T7 & T8); try (rewrite EL; reflexivity); try (intros; reflexivity).
  { intros idx. apply (wf_rows s W). }
  exists t, jss. split; [exact E|]. split; [exact Wt|]. split; [exact LJ|]. split.
  { intros i Hi. rewrite (NJ i Hi). destruct (nonzero_spec (nth i sel [])) as [N1 N2]. split; [exact N1|]. intros j. rewrite N2. split.
    - intros H. assert (Hj : j < nth i (sshape s) 0) by (destruct (Nat.ltb_spec j (nth i (sshape s) 0)); [assumption|]; rewrite nth_overflow in H by (rewrite (S2 i Hi); lia); discriminate).
      split; [exact Hj|]. apply (S3 i j Hi Hj) in H. destruct H as [H1 H2]. split; [|exact H2]. rewrite (Hstart i Hi) in H1.
      rewrite (nth_error_nth _ j false (x := all_but (sshape s) m i j)) in H1 by (rewrite nth_error_map', nth_error_seq; destruct (Nat.ltb_spec j (nth i (sshape s) 0)); [reflexivity|lia]).
      rewrite all_but_spec in H1. intros m0 idx Hm HV Ej. specialize (H1 idx HV Ej). unfold m in H1. rewrite forallb_forall in H1. apply (H1 m0 Hm).
    - intros (Hj & H1 & H2). apply (S3 i j Hi Hj). split; [|exact H2]. rewrite (Hstart i Hi).
      rewrite (nth_error_nth _ j false (x := all_but (sshape s) m i j)) by (rewrite nth_error_map', nth_error_seq; destruct (Nat.ltb_spec j (nth i (sshape s) 0)); [reflexivity|lia]).
      apply all_but_spec. intros idx HV Ej. unfold m. apply forallb_forall. intros m0 Hm. apply (H1 m0 idx Hm HV Ej). }
  split; [exact T1|]. split; [exact T4|]. split; [exact T5|]. split; [exact T6|]. split; [exact T2|]. split; [congruence|]. split; [exact T7|].
  intros idx HV. destruct (T8 idx HV) as [-> ->].
  assert (keep (map (fun _ => true) jss) idx = idx) as ->; [|split; reflexivity].
  clear -HV. apply valid_length in HV. unfold counts in HV. rewrite map_length in HV. revert idx HV. induction jss as [|js jss IH]; intros [|i idx] HV; try discriminate; cbn; [reflexivity|]. rewrite IH by (cbn in HV; lia). reflexivity.
Qed.
