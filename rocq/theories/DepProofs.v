From Coq Require Import String QArith Qcanon Qround Permutation.
From Verif Require Import Base BaseProofs Num CosmoModel CosmoSpec CosmoProofs CosmoMore CosmoUse CosmoDef DepModel DepSpec.
Local Open Scope nat_scope.
Local Notation length := List.length.

Lemma name_eqb_refl n : name_eqb n n = true.
Proof. unfold name_eqb. destruct (name_eq_dec n n); congruence. Qed.
Lemma kw_in user n v : NoDup (map fst user) -> In (n, v) user -> kw_get user n = Some v.
Proof.
  unfold kw_get. induction user as [|[m x] user IH]; [intros _ []|]. cbn [map fst find]. intros ND [H|H].
  - assert (m = n /\ x = v) as [-> ->] by (split; congruence). rewrite name_eqb_refl. reflexivity.
  - inversion ND as [|y l NI ND' E]. unfold name_eqb. destruct (name_eq_dec m n) as [->|]; [exfalso; apply NI; apply (in_map fst user (n, v)); exact H|]. exact (IH ND' H).
Qed.
Lemma kw_none user n : ~ In n (map fst user) -> kw_get user n = None.
Proof.
  unfold kw_get. induction user as [|[m x] user IH]; [reflexivity|]. cbn [map fst find In]. intros H. unfold name_eqb. destruct (name_eq_dec m n) as [->|]; [exfalso; apply H; left; reflexivity|]. apply IH. intros B. apply H. right. exact B.
Qed.
Lemma kw_some user n v : kw_get user n = Some v -> In (n, v) user.
Proof.
  unfold kw_get. destruct (find _ user) as [[m x]|] eqn:E; [|discriminate]. cbn [option_map snd]. intros H. apply find_some in E. destruct E as [E G]. cbn [fst] in G. unfold name_eqb in G. destruct (name_eq_dec m n); [|discriminate]. subst m. assert (x = v) by congruence. subst x. exact E.
Qed.
Lemma is_old_iff n : is_old n = true <-> old_name n.
Proof.
  unfold old_name. destruct n as [k|o]; cbn [is_old].
  - split; [intros H; left; apply key_eqb_true in H; congruence|]. intros [H|[o H]]; [|discriminate]. assert (k = H0) by congruence. subst k. apply key_eqb_refl.
  - split; [intros _; right; eexists; reflexivity|reflexivity].
Qed.
Lemma old_value_get user n v : NoDup (map fst user) -> old_value user n v -> old_get user n = v.
Proof.
  intros ND [H|[H D]]; unfold old_get; [rewrite (kw_in user n v ND H); reflexivity|]. rewrite (kw_none user n H). inversion D; reflexivity.
Qed.

(* ---- the parameters of an astropy object ---- *)
Lemma massless_ok N n f : nth_error [Q2Qc (20328 # 10000); Q2Qc (10196 # 10000); Q2Qc (641 # 100000)] n = Some f -> (N / Q2Qc (3046 # 1000) * f)%Qc = massless N (S n).
Proof.
  assert (NZ : Q2Qc (3046 # 1000) <> 0%Qc) by (intros C; apply (f_equal this) in C; discriminate C).
  assert (G : forall x y, x = (y * Q2Qc (3046 # 1000))%Qc -> (N / Q2Qc (3046 # 1000) * x)%Qc = (N * y)%Qc) by (intros x y ->; field; exact NZ).
  destruct n as [|[|[|n]]]; cbn [nth_error massless]; intros H; [| | |destruct n; discriminate H]; assert (E := f_equal (fun o => match o with Some x => x | None => 0%Qc end) H); cbv beta iota in E; rewrite <- E; apply G; apply Qc_is_canon; reflexivity.
Qed.
Definition afound (a : astropy) (ok : Qc) (k : key) : option val :=
  let lam := match a_cls a with LambdaCDM => true | _ => false end in
  match k with
  | h => Some (VNum (a_H0 a / zq 100)%Qc) | T0_cmb => Some (VNum (a_Tcmb0 a)) | Omega0_b => Some (VNum (a_Ob0 a)) | Omega0_cdm => Some (VNum (a_Om0 a - a_Ob0 a)%Qc)
  | Omega0_k => Some (VNum ok) | N_ur => Some (VNum (massless (a_Neff a) (length (filter pos (astropy_masses a)))))
  | m_ncdm => Some (VList (sort_desc (filter pos (astropy_masses a))))
  | w0_fld => if lam then None else Some (VNum (astropy_w0 a)) | wa_fld => if lam then None else Some (VNum (astropy_wa a)) | Omega0_Lambda => if lam then None else Some (VNum 0)
  | _ => None
  end.
Lemma a2d_ok a ok : (0 < a_Ob0 a)%Qc -> length (filter pos (astropy_masses a)) <= 3 -> exists d, astropy_to_dict a ok = Ok d /\ forall k, d k = afound a ok k.
Proof.
  intros HB HL. unfold astropy_to_dict, afound. cbv zeta. unfold pos at 1. destruct (Qclt_le_dec 0 (a_Ob0 a)) as [_|C]; [|exfalso; exact (Qcle_not_lt _ _ C HB)]. cbn [negb].
  set (ms := filter pos (astropy_masses a)) in *.
  assert (E : exists d0, (match ms with
     | [] => Ok (set (set (set (set (set (kw1 h (VNum (a_H0 a / zq 100)%Qc)) T0_cmb (VNum (a_Tcmb0 a))) Omega0_b (VNum (a_Ob0 a))) Omega0_cdm (VNum (a_Om0 a - a_Ob0 a)%Qc)) m_ncdm (VList [])) N_ur (VNum (a_Neff a)))
     | _ => match nth_error [Q2Qc (20328 # 10000); Q2Qc (10196 # 10000); Q2Qc (641 # 100000)] (length ms - 1) with
            | None => Err IndexError
            | Some f => Ok (set (set (set (set (set (kw1 h (VNum (a_H0 a / zq 100)%Qc)) T0_cmb (VNum (a_Tcmb0 a))) Omega0_b (VNum (a_Ob0 a))) Omega0_cdm (VNum (a_Om0 a - a_Ob0 a)%Qc)) N_ur (VNum (a_Neff a / Q2Qc (3046 # 1000) * f)%Qc)) m_ncdm (VList (sort_desc ms)))
            end
     end) = Ok d0 /\ forall k, d0 k = match k with
       | h => Some (VNum (a_H0 a / zq 100)%Qc) | T0_cmb => Some (VNum (a_Tcmb0 a)) | Omega0_b => Some (VNum (a_Ob0 a)) | Omega0_cdm => Some (VNum (a_Om0 a - a_Ob0 a)%Qc)
       | N_ur => Some (VNum (massless (a_Neff a) (length ms))) | m_ncdm => Some (VList (sort_desc ms)) | _ => None end).
  { destruct ms as [|m0 ms'] eqn:EM.
    - eexists. split; [reflexivity|]. intros k. unfold kw1. destruct k; keys; reflexivity.
    - rewrite <- EM in *. assert (LM : length ms = S (length ms - 1)) by (rewrite EM; cbn [length]; lia).
      destruct (nth_error [Q2Qc (20328 # 10000); Q2Qc (10196 # 10000); Q2Qc (641 # 100000)] (length ms - 1)) as [f|] eqn:EF; [|exfalso; apply nth_error_None in EF; cbn [length] in EF; lia].
      eexists. split; [reflexivity|]. intros k. rewrite LM. rewrite <- (massless_ok (a_Neff a) _ f EF). unfold kw1. destruct k; keys; reflexivity. }
  destruct E as (d0 & E & D0). rewrite E. cbn [rbind]. eexists. split; [reflexivity|]. intros k. destruct (a_cls a) eqn:EC; destruct k; keys; rewrite ?D0; unfold astropy_wa; rewrite ?EC; reflexivity.
Qed.
Lemma a2d_err a ok d : astropy_to_dict a ok = Ok d -> (0 < a_Ob0 a)%Qc /\ length (filter pos (astropy_masses a)) <= 3.
Proof.
  unfold astropy_to_dict. cbv zeta. unfold pos at 1. destruct (Qclt_le_dec 0 (a_Ob0 a)) as [HB|]; [|discriminate]. cbn [negb]. intros H. split; [exact HB|].
  destruct (filter pos (astropy_masses a)) as [|m0 ms'] eqn:EM; [cbn [length]; lia|]. rewrite <- EM in *. set (ms := filter pos (astropy_masses a)) in *.
  destruct (nth_error _ (length ms - 1)) as [f|] eqn:EF; [|discriminate H]. assert (LT : length ms - 1 < 3) by (change 3 with (length [Q2Qc (20328 # 10000); Q2Qc (10196 # 10000); Q2Qc (641 # 100000)]); apply nth_error_Some; rewrite EF; discriminate). lia.
Qed.
Lemma ins_desc_in x y l : In y (ins_desc x l) -> y = x \/ In y l.
Proof. intros H. apply (Permutation_in _ (ins_desc_perm x l)) in H. destruct H; [left; congruence|right; assumption]. Qed.
Lemma sort_descending l : descending (sort_desc l).
Proof.
  induction l as [|x l IH]; [exact I|]. cbn [sort_desc fold_right]. fold (sort_desc l). generalize dependent (sort_desc l). clear l. intros l. induction l as [|y l IHl]; intros D; [cbn; split; [constructor|exact I]|].
  cbn [ins_desc]. destruct (Qclt_le_dec y x) as [L|L].
  - cbn [descending] in *. destruct D as [D1 D2]. split; [|split; assumption]. constructor; [apply Qclt_le_weak; exact L|]. rewrite Forall_forall in *. intros z Z. apply Qcle_trans with y; [exact (D1 z Z)|apply Qclt_le_weak; exact L].
  - cbn [descending] in *. destruct D as [D1 D2]. split; [|exact (IHl D2)]. rewrite Forall_forall in *. intros z Z. apply ins_desc_in in Z. destruct Z as [->|Z]; [exact L|exact (D1 z Z)].
Qed.
Lemma descending_unique l m : Permutation l m -> descending l -> descending m -> l = m.
Proof.
  revert m. induction l as [|x l IH]; intros m P D1 D2; [apply Permutation_nil in P; congruence|]. destruct m as [|y m]; [apply Permutation_sym, Permutation_nil in P; discriminate|].
  cbn [descending] in D1, D2. destruct D1 as [A1' A2], D2 as [B1 B2]. rewrite Forall_forall in *.
  assert (E : x = y). { apply Qcle_antisym.
    - assert (X : In x (y :: m)) by (apply (Permutation_in _ P); left; reflexivity). destruct X as [->|X]; [apply Qcle_refl|exact (B1 x X)].
    - assert (Y : In y (x :: l)) by (apply (Permutation_in _ (Permutation_sym P)); left; reflexivity). destruct Y as [->|Y]; [apply Qcle_refl|exact (A1' y Y)]. }
  subst y. f_equal. apply IH; [exact (Permutation_cons_inv P)|assumption..].
Qed.
Lemma found_iff a ok k v : found a ok k v <-> afound a ok k = Some v.
Proof.
  split.
  - intros H. inversion H; subst; unfold afound; try reflexivity.
    + f_equal. f_equal. apply descending_unique; [|apply sort_descending|assumption]. eapply Permutation_trans; [apply sort_desc_perm|apply Permutation_sym; assumption].
    + destruct (a_cls a); congruence || reflexivity.
    + destruct (a_cls a); congruence || reflexivity.
    + destruct (a_cls a); congruence || reflexivity.
  - unfold afound. destruct k; intros H; try discriminate H.
    + assert (v = VNum (a_H0 a / zq 100)%Qc) by congruence; subst v; constructor.
    + assert (v = VNum (a_Tcmb0 a)) by congruence; subst v; constructor.
    + assert (v = VNum (a_Ob0 a)) by congruence; subst v; constructor.
    + destruct (a_cls a) eqn:EC; [discriminate H|..]; assert (v = VNum 0) by congruence; subst v; constructor; congruence.
    + assert (v = VNum (massless (a_Neff a) (length (filter pos (astropy_masses a))))) by congruence; subst v; constructor.
    + assert (v = VNum (a_Om0 a - a_Ob0 a)%Qc) by congruence; subst v; constructor.
    + assert (v = VList (sort_desc (filter pos (astropy_masses a)))) by congruence; subst v. constructor; [apply sort_desc_perm|apply sort_descending].
    + assert (v = VNum ok) by congruence; subst v; constructor.
    + destruct (a_cls a) eqn:EC; [discriminate H|..]; assert (v = VNum (astropy_w0 a)) by congruence; subst v; constructor; congruence.
    + destruct (a_cls a) eqn:EC; [discriminate H|..]; assert (v = VNum (astropy_wa a)) by congruence; subst v; constructor; congruence.
Qed.

(* ---- compiling them ---- *)
Lemma pos_iff x : pos x = true <-> (0 < x)%Qc.
Proof. unfold pos. destruct (Qclt_le_dec 0 x) as [L|L]; split; intros H; try reflexivity; try assumption; try discriminate. exfalso. exact (Qcle_not_lt _ _ L H). Qed.
Lemma sorted_pos l x : In x (sort_desc (filter pos l)) -> (0 < x)%Qc.
Proof. intros H. apply (Permutation_in _ (sort_desc_perm _)) in H. apply filter_In in H. apply pos_iff. apply H. Qed.
Lemma positive_zero : positive (VNum 0) = Ok false.
Proof. cbn [positive]. destruct (Qclt_le_dec 0 0) as [C|C]; [exfalso; revert C; apply Qcle_not_lt; apply Qcle_refl|reflexivity]. Qed.
Lemma compile_found a ok d : (forall k, d k = afound a ok k) -> exists p, compile_args d = Ok p.
Proof.
  intros D. apply (proj2 (compile_pt d)).
  - unfold mass_ok. rewrite D. cbn [afound]. exists (sort_desc (filter pos (astropy_masses a))). split; [reflexivity|]. split; [intros B; apply sorted_pos in B; revert B; apply Qcle_not_lt; apply Qcle_refl|]. rewrite D. split; discriminate.
  - unfold gauge_ok. rewrite D. discriminate.
  - unfold lambda_ok. cbn [A1]. rewrite !D. cbn [afound orelse]. destruct (a_cls a); intros _; [exact I|exact positive_zero..].
Qed.
Lemma sort_desc_length l : length (sort_desc l) = length l.
Proof. apply Permutation_length. apply sort_desc_perm. Qed.

Section Old.
Variable ok0 : astropy -> Qc.
Lemma species_ok T N v l : masses T N v l -> Forall (fun m => 0 <= m)%Qc l -> species T N v = Ok l.
Proof.
  intros [HT H] HF. unfold species. cbv zeta. set (n := Z.to_nat (Qfloor (this N))) in *. rewrite (proj2 (pos_iff T) HT). cbn [negb]. rewrite Forall_forall in HF.
  destruct H as [(-> & L & A & NZ)|(-> & L)].
  - destruct l as [|x l]; [exfalso; cbn [length] in L; lia|]. cbn [hd] in *. unfold neg. destruct (Qclt_le_dec x 0) as [C|_]; [exfalso; exact (Qcle_not_lt _ _ (HF x (or_introl eq_refl)) C)|]. cbn [andb]. f_equal. rewrite <- L.
    clear - A. revert A. generalize (x :: l). intros m A. induction m as [|y m IH]; [reflexivity|]. cbn [length repeat]. rewrite (A y (or_introl eq_refl)). f_equal. apply IH. intros z Z. apply A. right. exact Z.
  - destruct (n =? 0) eqn:E0; [apply Nat.eqb_eq in E0; destruct l; [reflexivity|cbn [length] in L; lia]|].
    assert (E1 : existsb neg l = false). { apply not_true_is_false. intros B. apply existsb_exists in B. destruct B as (x & X & B). unfold neg in B. destruct (Qclt_le_dec x 0) as [C|]; [|discriminate]. exact (Qcle_not_lt _ _ (HF x X) C). }
    rewrite E1, L, Nat.eqb_refl. reflexivity.
Qed.
Lemma old_object_ok user q : NoDup (map fst user) -> describes user q -> sensible q -> exists a, old_object user = Ok a /\ object_of q a /\ (p_w q <> (- (1))%Qc -> astropy_w0 a = p_w q /\ astropy_wa a = 0%Qc).
Proof.
  intros ND (D1 & D2 & D3 & D4 & D5 & D6 & D7 & (v & D8 & DM) & (w & D9 & DF)) ((S1 & S2 & S3) & S4 & S5).
  unfold old_object. rewrite (old_value_get _ _ _ ND D1), (old_value_get _ _ _ ND D2), (old_value_get _ _ _ ND D3), (old_value_get _ _ _ ND D4), (old_value_get _ _ _ ND D5), (old_value_get _ _ _ ND D6), (old_value_get _ _ _ ND D7), (old_value_get _ _ _ ND D8), (old_value_get _ _ _ ND D9).
  cbn [number rbind]. cbv zeta.
  assert (N1 : forall x, (0 <= x)%Qc -> neg x = false) by (intros x X; unfold neg; destruct (Qclt_le_dec x 0) as [C|]; [exfalso; exact (Qcle_not_lt _ _ X C)|reflexivity]).
  rewrite (N1 (p_N q) S3), (N1 (p_b q) (Qclt_le_weak _ _ S1)), (N1 (p_m q) (Qcle_trans _ _ _ (Qclt_le_weak _ _ S1) S2)). cbn [orb].
  destruct (Qclt_le_dec (p_m q) (p_b q)) as [C|_]; [exfalso; exact (Qcle_not_lt _ _ S2 C)|]. rewrite (species_ok _ _ _ _ DM S4). cbn [rbind].
  eexists. split; [reflexivity|]. unfold object_of. cbn [a_H0 a_Om0 a_Ob0 a_Tcmb0 a_Neff a_m_nu a_flat a_Ode0 a_cls]. rewrite DF.
  destruct (Qc_eq_dec (p_w q) (- (1))) as [EW|EW].
  - split; [|intros B; contradiction]. repeat split; intros; try reflexivity; try assumption; try discriminate; try contradiction.
  - split; [|intros _; unfold astropy_w0, astropy_wa; cbn [a_cls a_w0]; split; reflexivity]. repeat split; intros; try reflexivity; try assumption; try discriminate; try contradiction.
Qed.
Lemma old_ok user q : user <> [] -> NoDup (map fst user) -> Forall old_name (map fst user) -> describes user q -> sensible q ->
  exists a p l, object_of q a /\ construct ok0 [] user = Ok p /\ Permutation l (filter pos (p_nu q)) /\ descending l /\
    p h = Some (VNum (p_H q / zq 100)%Qc) /\ p T_cmb = Some (VNum (p_T q)) /\ p Omega_b = Some (VNum (p_b q)) /\ p Omega_cdm = Some (VNum (p_m q - p_b q)%Qc) /\
    p Omega_k = Some (VNum (ok0 a)) /\ p N_ncdm = Some (VNum (zq (Z.of_nat (length l)))) /\ p m_ncdm = (match l with [] => None | _ => Some (VList l) end) /\
    p N_ur = Some (VNum (massless (p_N q) (length l))) /\
    (p_w q = (- (1))%Qc -> p w0_fld = None /\ p wa_fld = None /\ p Omega_Lambda = None) /\
    (p_w q <> (- (1))%Qc -> p w0_fld = Some (VNum (p_w q)) /\ p wa_fld = Some (VNum 0) /\ p Omega_Lambda = Some (VNum 0)).
Proof.
  intros NE ND AO DS SE. destruct (old_object_ok user q ND DS SE) as (a & EO & OA & OW). destruct OA as (O1 & O2 & O3 & O4 & O5 & O6 & O7 & O8 & O9 & O10). destruct SE as ((S1 & S2 & S3) & S4 & S5).
  assert (EM : astropy_masses a = p_nu q) by (unfold astropy_masses; rewrite O6; reflexivity).
  destruct (a2d_ok a (ok0 a)) as (d & ED & HD); [rewrite O3; exact S1|rewrite EM; exact S5|]. destruct (compile_found a (ok0 a) d HD) as (p & EP).
  set (l := sort_desc (filter pos (p_nu q))). assert (LL : length l = length (filter pos (p_nu q))) by apply sort_desc_length. exists a, p, l. split; [repeat split; try assumption; try (apply O9); try (apply O10)|].
  assert (EC : construct ok0 [] user = Ok p).
  { unfold construct. cbn [length]. change (length positional <? 0) with false. cbv iota. change (by_position []) with (combine (map Key positional) ([] : list val)). cbn [positional map combine existsb].
    assert (E1 : existsb is_old (map fst user) = true). { destruct user as [|[n v] user]; [contradiction|]. cbn [map fst existsb]. inversion AO as [|x y X Y]. cbn [fst] in X. rewrite (proj2 (is_old_iff n) X). reflexivity. }
    assert (E2 : forallb is_old (map fst user) = true). { apply forallb_forall. intros n N. apply is_old_iff. rewrite Forall_forall in AO. exact (AO n N). }
    rewrite E1, E2. change (negb true || negb (0 =? 0)) with false. cbv iota. rewrite EO. cbn [rbind]. rewrite ED. cbn [rbind].
    assert (E3 : existsb (fun n => match n with Key k => has d k | Old _ => false end) (map fst user) = false).
    { apply not_true_is_false. intros B. apply existsb_exists in B. destruct B as (n & N & B). rewrite Forall_forall in AO. destruct (AO n N) as [->|[o ->]]; [|discriminate B]. unfold has in B. rewrite HD in B. discriminate B. }
    rewrite E3. assert (E4 : check_args (dict_of user) = Ok tt).
    { apply consistent_check. intros x y X Y (R1 & _). assert (G : forall z, dict_of user z <> None -> z = H0). { intros z Z. unfold dict_of in Z. destruct (kw_get user (Key z)) as [v|] eqn:E; [|congruence]. apply kw_some in E. rewrite Forall_forall in AO. destruct (AO _ (in_map fst _ _ E)) as [B|[o B]]; cbn [fst] in B; congruence. }
      apply R1. rewrite (G x X), (G y Y). reflexivity. }
    rewrite E4. cbn [rbind]. exact EP. }
  split; [exact EC|]. split; [apply sort_desc_perm|]. split; [apply sort_descending|].
  assert (HP := proj2 (proj2 (proj2 (proj1 (compile_pt d) p EP)))). rewrite !HP. cbn [F A1]. unfold has. rewrite !HD. cbn [afound orelse clean]. rewrite O1, O2, O3, O4, O5, EM. fold l. cbn [mass_list]. rewrite <- LL.
  split; [reflexivity|]. split; [reflexivity|]. split; [reflexivity|]. split; [reflexivity|]. split; [reflexivity|]. split; [reflexivity|]. split; [destruct l; reflexivity|]. split; [reflexivity|].
  split; intros W.
  - rewrite (proj2 O9 W). repeat split; reflexivity.
  - destruct (OW W) as [W1 W2]. rewrite (proj2 O10 W), W1, W2. repeat split; reflexivity.
Qed.
Lemma mixed vals user : length vals <= length positional -> (forall n, In n (map fst (by_position vals)) -> ~ In n (map fst user)) -> (exists n, In n (map fst user) /\ old_name n) ->
  (exists n, In n (map fst user) /\ ~ old_name n) \/ vals <> [] -> construct ok0 vals user = Err ValueError.
Proof.
  intros HL HD (n & N & ON) HM. unfold construct. destruct (length positional <? length vals) eqn:EL; [apply Nat.ltb_lt in EL; lia|].
  assert (E0 : existsb (has_name user) (map fst (by_position vals)) = false). { apply not_true_is_false. intros B. apply existsb_exists in B. destruct B as (m & M & B). unfold has_name in B. rewrite (kw_none user m (HD m M)) in B. discriminate. }
  rewrite E0. assert (E1 : existsb is_old (map fst user) = true) by (apply existsb_exists; exists n; split; [exact N|apply is_old_iff; exact ON]). rewrite E1.
  assert (E2 : negb (forallb is_old (map fst user)) || negb (length vals =? 0) = true); [|rewrite E2; reflexivity].
  apply orb_true_iff. destruct HM as [(m & M & NO)|NV].
  - left. apply negb_true_iff. apply not_true_is_false. intros B. rewrite forallb_forall in B. apply NO. apply is_old_iff. exact (B m M).
  - right. destruct vals; [contradiction|reflexivity].
Qed.

(* ---- from_astropy ---- *)
Lemma from_astropy_init a kw p : from_astropy ok0 a kw = Ok p -> exists d, astropy_to_dict a (ok0 a) = Ok d /\ (forall k, d k = afound a (ok0 a) k) /\ cosmology_init (update d (dict_of kw)) = Ok p /\ check_args (update d (dict_of kw)) = Ok tt.
Proof.
  unfold from_astropy. destruct (astropy_to_dict a (ok0 a)) as [d|] eqn:ED; cbn [rbind]; [|discriminate]. destruct (a2d_err _ _ _ ED) as [HB HL]. destruct (a2d_ok a (ok0 a) HB HL) as (d' & ED' & HD). assert (d' = d) by congruence. subst d'.
  destruct (existsb is_old (map fst kw)) eqn:EO; [discriminate|]. cbv zeta. intros H. exists d. split; [reflexivity|]. split; [exact HD|].
  rewrite init_new_iff; [split; [exact H|]|].
  - destruct (check_args (update d (dict_of kw))) as [[]|]; [reflexivity|discriminate H].
  - unfold update, dict_of. destruct (kw_get kw (Key H0)) as [v|] eqn:E; [|rewrite HD; reflexivity]. exfalso. apply kw_some in E. assert (B : existsb is_old (map fst kw) = true) by (apply existsb_exists; exists (Key H0); split; [exact (in_map fst _ _ E)|reflexivity]). congruence.
Qed.
Lemma from_astropy_sets a kw p k v : NoDup (map fst kw) -> from_astropy ok0 a kw = Ok p ->
  In (Key k, v) kw \/ ~ In (Key k) (map fst kw) /\ found a (ok0 a) k v -> translated k = false -> (k = N_ur -> v <> VNone) ->
  (forall k', In (Key k') (map fst kw) \/ (exists v', found a (ok0 a) k' v') -> ~ rivals k k') ->
  (class_name k = Omega_Lambda -> a_cls a = LambdaCDM /\ ~ In (Key w0_fld) (map fst kw) /\ ~ In (Key wa_fld) (map fst kw)) ->
  p (class_name k) = given v.
Proof.
  intros ND H HK HT HN HR HL. destruct (from_astropy_init a kw p H) as (d & _ & HD & HI & _). apply (init_sets _ p k v HI).
  - unfold update, dict_of. destruct HK as [HK|[HK HF]]; [rewrite (kw_in kw _ v ND HK); reflexivity|]. rewrite (kw_none kw _ HK), HD. apply found_iff. exact HF.
  - exact HT.
  - exact HN.
  - intros k' B. apply HR. unfold update, dict_of in B. destruct (kw_get kw (Key k')) as [x|] eqn:E; [left; apply kw_some in E; exact (in_map fst _ _ E)|]. right. rewrite HD in B. destruct (afound a (ok0 a) k') as [x|] eqn:E2; [|congruence]. exists x. apply found_iff. exact E2.
  - intros E. destruct (HL E) as (L1 & L2 & L3). unfold update, dict_of. rewrite (kw_none kw _ L2), (kw_none kw _ L3), !HD. unfold afound. rewrite L1. split; reflexivity.
Qed.
Lemma from_astropy_neutrinos a kw p : from_astropy ok0 a kw = Ok p -> ~ In (Key m_ncdm) (map fst kw) ->
  exists l, Permutation l (filter pos (astropy_masses a)) /\ descending l /\ p N_ncdm = Some (VNum (zq (Z.of_nat (length l)))) /\ p m_ncdm = match l with [] => None | _ => Some (VList l) end.
Proof.
  intros H HN. destruct (from_astropy_init a kw p H) as (d & _ & HD & HI & _). exists (sort_desc (filter pos (astropy_masses a))). split; [apply sort_desc_perm|]. split; [apply sort_descending|].
  destruct (init_neutrinos _ p (sort_desc (filter pos (astropy_masses a))) HI) as (A & B & _); [|split; [exact A|exact B]].
  unfold masses_of, update, dict_of. rewrite (kw_none kw _ HN), HD. reflexivity.
Qed.
Lemma from_astropy_exists a : (0 < a_Ob0 a)%Qc -> length (filter pos (astropy_masses a)) <= 3 -> exists p, from_astropy ok0 a [] = Ok p.
Proof.
  intros HB HL. destruct (a2d_ok a (ok0 a) HB HL) as (d & ED & HD). unfold from_astropy. rewrite ED. cbn [rbind map existsb]. cbv zeta. set (u := update d (dict_of [])).
  assert (HU : forall k, u k = afound a (ok0 a) k) by (intros k; unfold u, update, dict_of, kw_get; cbn [find option_map]; apply HD).
  assert (E : check_args u = Ok tt). { apply consistent_check. intros x y X Y (R1 & R2 & R3). rewrite HU in X, Y. unfold afound in X, Y. destruct x; try congruence; destruct y; try congruence; exfalso; first [discriminate R3|apply R2; reflexivity|apply R1; reflexivity]. }
  rewrite E. cbn [rbind]. apply (proj2 (compile_pt _)).
  - unfold mass_ok, update at 1. rewrite HU. cbn [afound]. exists (sort_desc (filter pos (astropy_masses a))). split; [reflexivity|]. split; [intros B; apply sorted_pos in B; revert B; apply Qcle_not_lt; apply Qcle_refl|]. unfold update. rewrite HU. split; discriminate.
  - unfold gauge_ok, update. rewrite HU. cbn [afound init_defaults]. intros v V. left. congruence.
  - unfold lambda_ok. cbn [A1]. unfold update. rewrite !HU. cbn [afound orelse init_defaults]. destruct (a_cls a); intros _; [exact I|exact positive_zero..].
Qed.
Lemma from_astropy_refuses a kw k k' : NoDup (map fst kw) -> (0 < a_Ob0 a)%Qc -> length (filter pos (astropy_masses a)) <= 3 -> In (Key k) (map fst kw) ->
  (In (Key k') (map fst kw) \/ exists v, found a (ok0 a) k' v) -> rivals k k' -> orphan k = false -> orphan k' = false -> from_astropy ok0 a kw = Err ValueError.
Proof.
  intros ND HB HL HK HK' HR O1 O2. destruct (a2d_ok a (ok0 a) HB HL) as (d & ED & HD). unfold from_astropy. rewrite ED. cbn [rbind]. destruct (existsb is_old (map fst kw)); [reflexivity|]. cbv zeta.
  assert (G : forall z, In (Key z) (map fst kw) -> update d (dict_of kw) z <> None). { intros z Z. apply in_map_iff in Z. destruct Z as ([n v] & E & Z). cbn [fst] in E. subst n. unfold update, dict_of. rewrite (kw_in kw _ v ND Z). discriminate. }
  rewrite (check_refuses _ k k'); [reflexivity|assumption|assumption|exact (G k HK)| |exact HR].
  destruct HK' as [HK'|[v HK']]; [exact (G k' HK')|]. unfold update. destruct (dict_of kw k'); [discriminate|]. rewrite HD. apply found_iff in HK'. congruence.
Qed.
End Old.

(* ---- dictionaries ---- *)
Lemma put_length {X} (l : list X) i x : length (put l i x) = length l.
Proof. revert i. induction l as [|y l IH]; intros [|i]; cbn [put length]; try reflexivity. rewrite IH. reflexivity. Qed.
Lemma nth_put {X} (l : list X) i x j d : i <> j -> nth j (put l i x) d = nth j l d.
Proof. revert i j. induction l as [|y l IH]; intros [|i] [|j] H; cbn [put nth]; try reflexivity; try congruence. apply IH. congruence. Qed.
(* the known places are distinct; those of cosmologies are fresh, or were given to from_dict *)
Record inv (w : world) (done : list op) : Prop := {
  i_nodup : NoDup (w_known w);
  i_known : forall l, In l (w_known w) -> l < length (w_cells w);
  i_cosmo : forall c, In c (w_cosmos w) -> o_pars c < length (w_cells w) /\ cell w (o_pars c) = o_engine c /\ (forall i, nth_error (w_known w) i = Some (o_pars c) -> In (FromDict i) done) }.
Lemma nth_app_l {X} (l m : list X) i d : i < length l -> nth i (l ++ m) d = nth i l d.
Proof. intros H. apply app_nth1. exact H. Qed.
Lemma nth_error_inj {X} (l : list X) i j x : NoDup l -> nth_error l i = Some x -> nth_error l j = Some x -> i = j.
Proof. intros ND A B. rewrite NoDup_nth_error in ND. apply ND; [apply nth_error_Some; congruence|congruence]. Qed.
Lemma inv_more w done o : inv w done -> inv w (done ++ [o]).
Proof. intros [A B C]. constructor; [exact A|exact B|]. intros c H. destruct (C c H) as (C1 & C2 & C3). split; [exact C1|]. split; [exact C2|]. intros i I. apply in_or_app. left. exact (C3 i I). Qed.
Lemma inv_new w done d : inv w done -> inv (know (fst (new_cell w d)) (snd (new_cell w d))) done.
Proof.
  intros [A B C]. unfold new_cell, know. cbn [fst snd w_cells w_known w_cosmos]. constructor; cbn [w_cells w_known w_cosmos].
  - assert (P : Permutation (length (w_cells w) :: w_known w) (w_known w ++ [length (w_cells w)])) by apply Permutation_cons_append. apply (Permutation_NoDup P). constructor; [|exact A]. intros K. apply B in K. lia.
  - intros l K. rewrite app_length. cbn [length]. apply in_app_or in K. destruct K as [K|[<-|[]]]; [apply B in K; lia|lia].
  - intros c H. destruct (C c H) as (C1 & C2 & C3). rewrite app_length. split; [lia|]. unfold cell in *. cbn [w_cells]. rewrite nth_app_l by exact C1. split; [exact C2|]. intros i I. apply C3. assert (L := proj1 (nth_error_Some (w_known w ++ [length (w_cells w)]) i) ltac:(congruence)). rewrite app_length in L. cbn [length] in L.
    destruct (Nat.eq_dec i (length (w_known w))) as [->|NI]; [rewrite nth_error_app2 in I by lia; rewrite Nat.sub_diag in I; cbn [nth_error] in I; assert (length (w_cells w) = o_pars c) by congruence; lia|]. rewrite nth_error_app1 in I by lia. exact I.
Qed.
Lemma inv_made w done r : inv w done -> inv (made w r) done.
Proof.
  intros [A B C]. destruct r as [p|]; [|constructor; assumption]. unfold made, new_cell, new_cosmo. constructor; cbn [w_cells w_known w_cosmos].
  - exact A.
  - intros l K. rewrite app_length. apply B in K. lia.
  - intros c H. rewrite app_length. cbn [length]. unfold cell in *. cbn [w_cells]. apply in_app_or in H. destruct H as [H|[<-|[]]].
    + destruct (C c H) as (C1 & C2 & C3). split; [lia|]. rewrite nth_app_l by exact C1. split; [exact C2|exact C3].
    + cbn [o_pars o_engine]. split; [lia|]. split; [rewrite app_nth2 by lia; rewrite Nat.sub_diag; reflexivity|]. intros i I. apply nth_error_In in I. apply B in I. lia.
Qed.
Lemma inv_step w done o : inv w done -> (forall i k v, o = SetItem i k v -> ~ In (FromDict i) done) -> inv (step w o) (done ++ [o]).
Proof.
  intros I H. destruct o as [d|i k v|i|user|c kw|c]; cbn [step].
  - assert (N := inv_new w done d I). unfold new_cell in *. cbn [fst snd] in N. apply inv_more. exact N.
  - destruct (nth_error (w_known w) i) as [l|] eqn:E; [|apply inv_more; exact I]. apply inv_more. specialize (H i k v eq_refl). destruct I as [A B C]. constructor; cbn [w_cells w_known w_cosmos].
    + exact A.
    + intros m M. rewrite put_length. exact (B m M).
    + intros c M. destruct (C c M) as (C1 & C2 & C3). rewrite put_length. split; [exact C1|]. split; [|exact C3]. unfold cell in *. cbn [w_cells]. rewrite nth_put; [exact C2|]. intros ->. exact (H (C3 i E)).
  - destruct (nth_error (w_known w) i) as [l|] eqn:E; [|apply inv_more; exact I]. destruct I as [A B C]. unfold new_cosmo. constructor; cbn [w_cells w_known w_cosmos].
    + exact A.
    + exact B.
    + intros c M. unfold cell in *. cbn [w_cells]. apply in_app_or in M. destruct M as [M|[<-|[]]].
      * destruct (C c M) as (C1 & C2 & C3). split; [exact C1|]. split; [exact C2|]. intros j J. apply in_or_app. left. exact (C3 j J).
      * cbn [o_pars o_engine]. split; [apply B; exact (nth_error_In _ _ E)|]. split; [reflexivity|]. intros j J. rewrite (nth_error_inj _ _ _ _ A J E). apply in_or_app. right. left. reflexivity.
  - apply inv_more. apply inv_made. exact I.
  - apply inv_more. destruct (nth_error (w_cosmos w) c); [apply inv_made; exact I|exact I].
  - apply inv_more. destruct (nth_error (w_cosmos w) c) as [cc|]; [|exact I]. assert (N := inv_new w done (cell w (o_pars cc)) I). unfold new_cell in *. cbn [fst snd] in N. exact N.
Qed.
Lemma inv_run prog : careful prog -> inv (run start prog) prog.
Proof.
  induction prog as [|o prog IH] using rev_ind; intros HC.
  - constructor; cbn; [constructor|intros l []|intros c []].
  - unfold run in *. rewrite fold_left_app. cbn [fold_left]. apply inv_step.
    + apply IH. intros pre i k v post E. apply (HC pre i k v (post ++ [o])). rewrite E, <- app_assoc. reflexivity.
    + intros i k v ->. exact (HC prog i k v [] eq_refl).
Qed.
Lemma step_cosmos w o : exists l, w_cosmos (step w o) = w_cosmos w ++ l.
Proof.
  assert (R : exists l, w_cosmos w = w_cosmos w ++ l) by (exists []; rewrite app_nil_r; reflexivity).
  assert (M : forall r, exists l, w_cosmos (made w r) = w_cosmos w ++ l) by (intros [p|]; [eexists; reflexivity|exact R]).
  destruct o as [d|i k v|i|user|c kw|c]; cbn [step].
  - exact R.
  - destruct (nth_error (w_known w) i); exact R.
  - destruct (nth_error (w_known w) i); [eexists; reflexivity|exact R].
  - apply M.
  - destruct (nth_error (w_cosmos w) c); [apply M|exact R].
  - destruct (nth_error (w_cosmos w) c); exact R.
Qed.
Lemma run_cosmos prog : forall w, exists l, w_cosmos (run w prog) = w_cosmos w ++ l.
Proof.
  induction prog as [|o prog IH]; intros w; [exists []; rewrite app_nil_r; reflexivity|]. unfold run. cbn [fold_left]. destruct (IH (step w o)) as [l L]. unfold run in L. destruct (step_cosmos w o) as [m M]. exists (m ++ l). rewrite L, M, <- app_assoc. reflexivity.
Qed.
Lemma immutable pre post c o : careful (pre ++ post) -> nth_error (w_cosmos (run start pre)) c = Some o ->
  nth_error (w_cosmos (run start (pre ++ post))) c = Some o /\ cell (run start pre) (o_pars o) = o_engine o /\ cell (run start (pre ++ post)) (o_pars o) = o_engine o.
Proof.
  intros HC HO. assert (E : nth_error (w_cosmos (run start (pre ++ post))) c = Some o).
  { unfold run. rewrite fold_left_app. destruct (run_cosmos post (run start pre)) as [l L]. unfold run in L, HO. rewrite L. rewrite nth_error_app1; [exact HO|apply nth_error_Some; congruence]. }
  split; [exact E|]. assert (HP : careful pre) by (intros a i k v b EB; apply (HC a i k v (b ++ post)); rewrite EB, <- app_assoc; reflexivity).
  split; [apply (i_cosmo _ _ (inv_run pre HP)); exact (nth_error_In _ _ HO)|apply (i_cosmo _ _ (inv_run _ HC)); exact (nth_error_In _ _ E)].
Qed.
