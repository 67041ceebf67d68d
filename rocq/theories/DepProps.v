(* C332-C337 *)
From Coq Require Import String QArith Qcanon Qround Permutation.
From Verif Require Import Base Num CosmoModel CosmoSpec CosmoDef DepModel DepSpec DepProofs.
Local Open Scope nat_scope.
Local Notation length := List.length.

(* ---- C332: the names of before 0.2.6 ---- *)
Theorem C332_old : forall ok0 user q, user <> [] -> NoDup (map fst user) -> Forall old_name (map fst user) -> describes user q -> sensible q ->
  exists a p l, object_of q a /\ construct ok0 [] user = Ok p /\ Permutation l (filter pos (p_nu q)) /\ descending l /\
    p h = Some (VNum (p_H q / zq 100)%Qc) /\ p T_cmb = Some (VNum (p_T q)) /\ p Omega_b = Some (VNum (p_b q)) /\ p Omega_cdm = Some (VNum (p_m q - p_b q)%Qc) /\
    p Omega_k = Some (VNum (ok0 a)) /\ p N_ncdm = Some (VNum (zq (Z.of_nat (length l)))) /\ p m_ncdm = (match l with [] => None | _ => Some (VList l) end) /\
    p N_ur = Some (VNum (massless (p_N q) (length l))) /\
    (p_w q = (- (1))%Qc -> p w0_fld = None /\ p wa_fld = None /\ p Omega_Lambda = None) /\
    (p_w q <> (- (1))%Qc -> p w0_fld = Some (VNum (p_w q)) /\ p wa_fld = Some (VNum 0) /\ p Omega_Lambda = Some (VNum 0)).
Proof. exact old_ok. Qed.
Print Assumptions C332_old.
Theorem C332_mixed : forall ok0 vals user, length vals <= length positional -> (forall n, In n (map fst (by_position vals)) -> ~ In n (map fst user)) -> (exists n, In n (map fst user) /\ old_name n) ->
  (exists n, In n (map fst user) /\ ~ old_name n) \/ vals <> [] -> construct ok0 vals user = Err ValueError.
Proof. exact mixed. Qed.
Print Assumptions C332_mixed.
Ltac qeq := vm_compute; repeat match goal with
  | |- _ /\ _ => split
  | |- Some _ = Some _ => apply (f_equal (@Some val))
  | |- VNum _ = VNum _ => apply (f_equal VNum)
  | |- VList _ = VList _ => apply (f_equal VList)
  | |- _ :: _ = _ :: _ => apply f_equal2
  | |- _ => reflexivity || discriminate || (apply Qc_is_canon; reflexivity)
  end.
Definition flat0 (a : astropy) : Qc := 0%Qc.
Definition ex_old : kwargs := [(Key H0, VNum (zq 70)); (Old W0, VNum (Q2Qc (-9 # 10))); (Old Mnu, VList [0%Qc; Q2Qc (6 # 100); Q2Qc (1 # 10)]); (Old Flat, VBool true)].
Definition ex_q : params := {| p_H := zq 70; p_m := Q2Qc (31 # 100); p_b := Q2Qc (486 # 10000); p_de := Q2Qc (69 # 100); p_w := Q2Qc (-9 # 10); p_T := Q2Qc (27255 # 10000); p_N := Q2Qc (304 # 100);
  p_nu := [0%Qc; Q2Qc (6 # 100); Q2Qc (1 # 10)]; p_flat := true |}.
Example C332_ex : NoDup (map fst ex_old) /\ Forall old_name (map fst ex_old) /\ describes ex_old ex_q /\ sensible ex_q /\
  match construct flat0 [] ex_old with
  | Ok p => p h = Some (VNum (Q2Qc (7 # 10))) /\ p m_ncdm = Some (VList [Q2Qc (1 # 10); Q2Qc (6 # 100)]) /\ p w0_fld = Some (VNum (Q2Qc (-9 # 10))) /\ p Omega_cdm = Some (VNum (Q2Qc (2614 # 10000)))
  | Err _ => False end.
Proof.
  split; [repeat constructor; cbn; intuition discriminate|]. split; [unfold ex_old; cbn [map fst]; repeat (apply Forall_cons; [unfold old_name; eauto|]); apply Forall_nil|]. split; [|split; [|qeq]].
  - assert (G : forall n v, ~ In n (map fst ex_old) -> default_of n v -> old_value ex_old n v) by (intros n v A B; right; split; assumption).
    unfold describes. cbn [p_H p_m p_b p_de p_w p_T p_N p_nu p_flat ex_q].
    split; [left; cbn; auto|]. split; [apply G; [cbn; intuition discriminate|constructor]|]. split; [apply G; [cbn; intuition discriminate|constructor]|]. split; [apply G; [cbn; intuition discriminate|constructor]|].
    split; [left; cbn; auto|]. split; [apply G; [cbn; intuition discriminate|constructor]|]. split; [apply G; [cbn; intuition discriminate|constructor]|]. split.
    + eexists. split; [left; right; right; left; reflexivity|]. split; [reflexivity|]. right. split; reflexivity.
    + eexists. split; [left; right; right; right; left; reflexivity|reflexivity].
  - repeat split; try (cbn; unfold Qclt, Qcle; cbn; easy); [repeat constructor; unfold Qcle; cbn; easy|vm_compute; lia].
Qed.
Example C332_mixed_ex : construct flat0 [] [(Key H0, VNum (zq 70)); (Key Omega0_b, VNum (Q2Qc (4 # 100)))] = Err ValueError /\ construct flat0 [VNum (Q2Qc (7 # 10))] [(Old Om0, VNum (Q2Qc (3 # 10)))] = Err ValueError.
Proof. split; vm_compute; reflexivity. Qed.

(* ---- C333: the documented defaults, also with H0 ---- *)
Theorem C333_defaults_refuted : exists user p, construct flat0 [] user = Ok p /\ user = [(Key H0, VNum (zq 70))] /\
  by_default n_s (Some (dec 9667 10000)) /\ p n_s = None /\ by_default P_k_max_h_Mpc (Some (dec 10 1)) /\ p P_k_max_h_Mpc = None /\
  (exists x, by_default Omega_b (Some (VNum x)) /\ p Omega_b <> Some (VNum x)).
Proof.
  destruct (construct flat0 [] [(Key H0, VNum (zq 70))]) as [p|] eqn:E; [|vm_compute in E; discriminate E]. exists [(Key H0, VNum (zq 70))], p. split; [exact E|]. split; [reflexivity|].
  assert (A : match construct flat0 [] [(Key H0, VNum (zq 70))] with Ok p => p n_s = None /\ p P_k_max_h_Mpc = None /\ p Omega_b = Some (VNum (Q2Qc (486 # 10000))) | Err _ => False end) by (qeq).
  rewrite E in A. destruct A as (A1 & A2 & A3). split; [constructor|]. split; [exact A1|]. split; [constructor|]. split; [exact A2|].
  exists (Q2Qc (22032 # 1000000) / (Q2Qc (67556 # 100000) * Q2Qc (67556 # 100000)))%Qc. split; [constructor; field; intros C; apply (f_equal this) in C; vm_compute in C; discriminate C|].
  rewrite A3. intros C. assert (C' : Q2Qc (486 # 10000) = (Q2Qc (22032 # 1000000) / (Q2Qc (67556 # 100000) * Q2Qc (67556 # 100000)))%Qc) by congruence. apply (f_equal this) in C'. vm_compute in C'. discriminate C'.
Qed.
Print Assumptions C333_defaults_refuted.

(* ---- C334: cosmologies of astropy objects ---- *)
Theorem C334_exists : forall ok0 a, (0 < a_Ob0 a)%Qc -> length (filter pos (astropy_masses a)) <= 3 -> exists p, from_astropy ok0 a [] = Ok p.
Proof. exact from_astropy_exists. Qed.
Print Assumptions C334_exists.
Theorem C334_sets : forall ok0 a kw p k v, NoDup (map fst kw) -> from_astropy ok0 a kw = Ok p ->
  In (Key k, v) kw \/ ~ In (Key k) (map fst kw) /\ found a (ok0 a) k v -> translated k = false -> (k = N_ur -> v <> VNone) ->
  (forall k', In (Key k') (map fst kw) \/ (exists v', found a (ok0 a) k' v') -> ~ rivals k k') ->
  (class_name k = Omega_Lambda -> a_cls a = LambdaCDM /\ ~ In (Key w0_fld) (map fst kw) /\ ~ In (Key wa_fld) (map fst kw)) ->
  p (class_name k) = given v.
Proof. exact from_astropy_sets. Qed.
Print Assumptions C334_sets.
Theorem C334_neutrinos : forall ok0 a kw p, from_astropy ok0 a kw = Ok p -> ~ In (Key m_ncdm) (map fst kw) ->
  exists l, Permutation l (filter pos (astropy_masses a)) /\ descending l /\ p N_ncdm = Some (VNum (zq (Z.of_nat (length l)))) /\ p m_ncdm = match l with [] => None | _ => Some (VList l) end.
Proof. exact from_astropy_neutrinos. Qed.
Print Assumptions C334_neutrinos.
Theorem C334_refuses : forall ok0 a kw k k', NoDup (map fst kw) -> (0 < a_Ob0 a)%Qc -> length (filter pos (astropy_masses a)) <= 3 -> In (Key k) (map fst kw) ->
  (In (Key k') (map fst kw) \/ exists v, found a (ok0 a) k' v) -> rivals k k' -> orphan k = false -> orphan k' = false -> from_astropy ok0 a kw = Err ValueError.
Proof. exact from_astropy_refuses. Qed.
Print Assumptions C334_refuses.
Definition ex_a : astropy := {| a_cls := wCDM; a_flat := true; a_H0 := zq 70; a_Om0 := Q2Qc (3 # 10); a_Tcmb0 := Q2Qc (27 # 10); a_Neff := Q2Qc (3046 # 1000); a_Ob0 := Q2Qc (4 # 100);
  a_m_nu := Some [0%Qc; 0%Qc; Q2Qc (6 # 100)]; a_Ode0 := None; a_w0 := Some (Q2Qc (-9 # 10)); a_wa := None |}.
Example C334_ex : match from_astropy flat0 ex_a [(Key P_k_max, VNum (zq 5))] with
  | Ok p => p h = Some (VNum (Q2Qc (7 # 10))) /\ p N_ur = Some (VNum (Q2Qc (20328 # 10000))) /\ p P_k_max_h_Mpc = Some (VNum (zq 5)) /\ p w0_fld = Some (VNum (Q2Qc (-9 # 10))) /\ p n_s <> None | Err _ => False end /\
  from_astropy flat0 ex_a [(Key omega_b, VNum (Q2Qc (2 # 100)))] = Err ValueError /\ rivals omega_b Omega0_b /\ found ex_a 0 Omega0_b (VNum (Q2Qc (4 # 100))).
Proof. split; [qeq|]. split; [vm_compute; reflexivity|]. split; [repeat split; discriminate|apply f_b]. Qed.

(* ---- C335: keywords in conflict with the object ---- *)
Theorem C335_conflict_refuted : exists a kw p v, NoDup (map fst kw) /\ In (Key h, VNum v) kw /\ (exists v', found a (flat0 a) h (VNum v') /\ v' <> v) /\
  from_astropy flat0 a kw = Ok p /\ p h = Some (VNum v).
Proof.
  destruct (from_astropy flat0 ex_a [(Key h, VNum (Q2Qc (1 # 2)))]) as [p|] eqn:E; [|vm_compute in E; discriminate E].
  exists ex_a, [(Key h, VNum (Q2Qc (1 # 2)))], p, (Q2Qc (1 # 2)). split; [repeat constructor; intros []|]. split; [left; reflexivity|]. split; [|split; [exact E|]].
  - eexists. split; [constructor|]. intros C. apply (f_equal this) in C. vm_compute in C. discriminate C.
  - assert (A : match from_astropy flat0 ex_a [(Key h, VNum (Q2Qc (1 # 2)))] with Ok p => p h = Some (VNum (Q2Qc (1 # 2))) | Err _ => False end) by qeq. rewrite E in A. exact A.
Qed.
Print Assumptions C335_conflict_refuted.

(* ---- C336: cosmologies do not change ---- *)
Theorem C336_immutable : forall pre post c o, careful (pre ++ post) -> nth_error (w_cosmos (run start pre)) c = Some o ->
  nth_error (w_cosmos (run start (pre ++ post))) c = Some o /\ cell (run start pre) (o_pars o) = o_engine o /\ cell (run start (pre ++ post)) (o_pars o) = o_engine o.
Proof. exact immutable. Qed.
Print Assumptions C336_immutable.
(* a program that makes, clones, lists and edits what it got *)
Definition ex_prog : list op := [Make empty; AsDict 0; SetItem 0 h (VNum (zq 1)); Clone 0 (kw1 h (VNum (Q2Qc (1 # 2)))); FromDict 0; NewDict empty; SetItem 1 h (VNum (zq 2))].
Example C336_ex : careful ex_prog /\ map (fun c => cell (run start ex_prog) (o_pars c) h) (w_cosmos (run start ex_prog)) = [Some (VNum (Q2Qc (67556 # 100000))); Some (VNum (Q2Qc (1 # 2))); Some (VNum (zq 1))].
Proof.
  split; [|qeq]. intros pre i k v post E. unfold ex_prog in E.
  do 7 (destruct pre as [|o pre]; cbn [app] in E; [try discriminate E; assert (EI := f_equal (fun l => match l with SetItem j _ _ :: _ => j | _ => 0 end) E); cbn in EI; subst i; cbn; intuition discriminate|
    assert (EO := f_equal (fun l => match l with x :: _ => x | [] => Make empty end) E); cbn in EO; apply (f_equal (@tl op)) in E; cbn [tl] in E; subst o]).
  destruct pre; discriminate E.
Qed.

(* ---- C337: the dictionary given to from_dict ---- *)
Theorem C337_from_dict_refuted : exists prog o, nth_error (w_cosmos (run start prog)) 0 = Some o /\ cell (run start prog) (o_pars o) h <> o_engine o h.
Proof.
  exists [NewDict (kw1 h (VNum (Q2Qc (7 # 10)))); FromDict 0; SetItem 0 h (VNum (zq 1))]. eexists. split; [reflexivity|]. cbn. intros C. assert (C' : zq 1 = Q2Qc (7 # 10)) by congruence. apply (f_equal this) in C'. vm_compute in C'. discriminate C'.
Qed.
Print Assumptions C337_from_dict_refuted.
