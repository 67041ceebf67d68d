(* FKP catalogs, meshes and the meta-data of ConvolvedFFTPower: C292-C302. *)
From Coq Require Import Ascii String QArith Qcanon Lia.
From Verif Require Import Base BaseProofs Num NamesModel NamesProofs TomProofs SurveyModel FkpModel FkpSpec FkpProofs FkpMain FkpFinal.
Local Notation length := List.length.
Local Open Scope Qc_scope.

(* ---- C292 ---- *)
Definition species_of (data : cat) (randoms : option cat) (k : fkpcat) (c c' : cat) : Prop :=
  (c = data /\ c' = k_data k) \/ (c = match randoms with Some r => r | None => empty_of data end /\ c' = k_rand k).
Lemma init_inv : forall id data r bs bp P0 nbar k, fkp_init id data r bs bp P0 nbar = Ok k ->
  (forall c c', species_of data r k c c' -> has_num c nbar = true /\ with_weight P0 nbar c = Ok c') /\ k_nbar k = nbar /\ k_id k = id.
Proof.
  intros id data r bs bp P0 nbar k H. unfold fkp_init in H. cbv zeta in H.
  destruct (has_num data nbar) eqn:H1; [ | discriminate]. cbn [negb] in H.
  destruct (has_num (match r with Some x => x | None => empty_of data end) nbar) eqn:H2; [ | discriminate]. cbn [negb] in H.
  destruct (with_weight P0 nbar data) as [d | ] eqn:E1; [ | discriminate]. cbn [rbind] in H.
  destruct (with_weight P0 nbar (match r with Some x => x | None => empty_of data end)) as [r' | ] eqn:E2; [ | discriminate]. cbn [rbind] in H.
  match type of H with Ok ?x = Ok _ => assert (E : k = x) by congruence end. rewrite E. cbn [k_data k_rand k_nbar k_id].
  split; [ | split; reflexivity]. intros c c' [[-> ->] | [-> ->]]; cbn [k_data k_rand]; split; assumption.
Qed.
Lemma c292_weights : forall id data r bs bp P0 nbar k c c' l, fkp_init id data r bs bp (Some P0) nbar = Ok k ->
  species_of data r k c c' -> 0 <= P0 -> num_col c nbar = Ok l -> length l = c_size c ->
  exists w, num_col c' FKPWeight = Ok w /\ length w = c_size c' /\
    forall i q, nth_error l i = Some (Fin q) -> 0 <= q ->
      exists v, nth_error w i = Some (Fin v) /\ v * (1 + P0 * q) = 1 /\ 0 < v /\ v <= 1.
Proof.
  intros id data r bs bp P0 nbar k c c' l H S HP Hl Ll. destruct (init_inv _ _ _ _ _ _ _ _ H) as [A _].
  destruct (A c c' S) as [_ W]. unfold with_weight in W. rewrite Hl in W. cbn [rbind] in W. injection W as <-.
  eexists. split; [apply num_set_same | ]. unfold weight_from_nbar. destruct (Qc_eq_dec P0 0) as [-> | NP].
  - split; [apply repeat_length | ]. intros i q Hi Hq. exists 1. split.
    + rewrite nth_error_repeat. rewrite (proj2 (Nat.ltb_lt i (c_size c))); [reflexivity | ]. rewrite <- Ll. apply nth_error_Some. congruence.
    + split; [ring | ]. split; [reflexivity | discriminate].
  - split; [rewrite map_length; exact Ll | ]. intros i q Hi Hq. destruct (weight_value P0 q HP Hq) as (v & E & V). exists v.
    split; [ | exact V]. rewrite nth_error_map, Hi. cbn [option_map]. rewrite E. reflexivity.
Qed.
Theorem C292_weights : forall id data r bs bp P0 nbar k c c' l, fkp_init id data r bs bp (Some P0) nbar = Ok k ->
  species_of data r k c c' -> 0 <= P0 -> num_col c nbar = Ok l -> length l = c_size c ->
  exists w, num_col c' FKPWeight = Ok w /\ length w = c_size c' /\
    forall i q, nth_error l i = Some (Fin q) -> 0 <= q ->
      exists v, nth_error w i = Some (Fin v) /\ v * (1 + P0 * q) = 1 /\ 0 < v /\ v <= 1.
Proof. exact c292_weights. Qed.
Print Assumptions C292_weights.

Lemma c292_others : forall id data r bs bp P0 nbar k c c', fkp_init id data r bs bp P0 nbar = Ok k -> species_of data r k c c' ->
  (forall n, n <> FKPWeight -> num_col c' n = num_col c n) /\ c_sel c' = c_sel c /\ c_vec c' = c_vec c /\ c_size c' = c_size c /\
  (P0 = None -> num_col c' FKPWeight = match num_col c FKPWeight with Ok l => Ok l | Err _ => Ok (repeat (Fin 1) (c_size c)) end).
Proof.
  intros id data r bs bp P0 nbar k c c' H S. destruct (init_inv _ _ _ _ _ _ _ _ H) as [A _].
  destruct (A c c' S) as [_ W]. unfold with_weight in W. destruct P0 as [p | ].
  - destruct (num_col c nbar) as [l | ]; [ | discriminate]. cbn [rbind] in W. injection W as <-.
    split; [intros n Hn; apply num_set_other; exact Hn | ]. do 3 (split; [reflexivity | ]). discriminate.
  - unfold has_num in W. destruct (num_col c FKPWeight) as [l | e] eqn:E; cbn [is_ok] in W.
    + injection W as <-. split; [reflexivity | ]. do 3 (split; [reflexivity | ]). intros _. exact E.
    + injection W as <-. split; [intros n Hn; apply num_set_other; exact Hn | ]. do 3 (split; [reflexivity | ]).
      intros _. apply num_set_same.
Qed.
Theorem C292_others : forall id data r bs bp P0 nbar k c c', fkp_init id data r bs bp P0 nbar = Ok k -> species_of data r k c c' ->
  (forall n, n <> FKPWeight -> num_col c' n = num_col c n) /\ c_sel c' = c_sel c /\ c_vec c' = c_vec c /\ c_size c' = c_size c /\
  (P0 = None -> num_col c' FKPWeight = match num_col c FKPWeight with Ok l => Ok l | Err _ => Ok (repeat (Fin 1) (c_size c)) end).
Proof. exact c292_others. Qed.
Print Assumptions C292_others.

Lemma c292_accepted : forall id data r bs bp P0 nbar,
  (exists k, fkp_init id data r bs bp P0 nbar = Ok k) <->
  (exists l, num_col data nbar = Ok l) /\ (forall x, r = Some x -> exists l, num_col x nbar = Ok l).
Proof.
  intros id data r bs bp P0 nbar.
  assert (P : forall c, has_num c nbar = true <-> exists l, num_col c nbar = Ok l).
  { intros c. unfold has_num. destruct (num_col c nbar); cbn [is_ok]; split; intros X; try discriminate; eauto. destruct X; discriminate. }
  assert (Em : forall c, has_num c nbar = true -> has_num (empty_of c) nbar = true).
  { intros c. unfold has_num, num_col, empty_of. cbn [c_num c_size].
    assert (G : forall d : list (str * list ext), dget (map (fun kv => (fst kv, @nil ext)) d) nbar = match dget d nbar with Some _ => Some [] | None => None end).
    { induction d as [ | [x v] d IH]; [reflexivity | ]. cbn [map dget fst]. destruct (str_eq_dec x nbar); [reflexivity | exact IH]. }
    rewrite G. destruct (dget (c_num c) nbar); [reflexivity | ]. destruct (mem nbar _); [reflexivity | discriminate]. }
  assert (Wk : forall c, has_num c nbar = true -> exists c', with_weight P0 nbar c = Ok c').
  { intros c Hc. apply P in Hc. destruct Hc as [l Hc]. unfold with_weight. destruct P0; [rewrite Hc; cbn [rbind]; eauto | ].
    destruct (has_num c FKPWeight); eauto. }
  split.
  - intros [k H]. destruct (init_inv _ _ _ _ _ _ _ _ H) as [A _]. split.
    + apply P. apply (A data (k_data k)). left. split; reflexivity.
    + intros x ->. apply P. apply (A x (k_rand k)). right. split; reflexivity.
  - intros [A B]. apply P in A. set (rr := match r with Some x => x | None => empty_of data end).
    assert (C : has_num rr nbar = true) by (unfold rr; destruct r as [x | ]; [apply P, B; reflexivity | apply Em; exact A]).
    destruct (Wk data A) as [d Hd]. destruct (Wk rr C) as [r' Hr].
    unfold fkp_init. cbv zeta. fold rr. rewrite A, C. cbn [negb]. rewrite Hd. cbn [rbind]. rewrite Hr. cbn [rbind]. eexists. reflexivity.
Qed.
Theorem C292_accepted : forall id data r bs bp P0 nbar,
  (exists k, fkp_init id data r bs bp P0 nbar = Ok k) <->
  (exists l, num_col data nbar = Ok l) /\ (forall x, r = Some x -> exists l, num_col x nbar = Ok l).
Proof. exact c292_accepted. Qed.
Print Assumptions C292_accepted.

(* a galaxy and two random points *)
Definition two : Qc := Q2Qc 2.
Definition four_ : Qc := Q2Qc 4.
Definition NZ := s_ "NZ".
Definition ex_data (attrs : dict) : cat :=
  {| c_size := 1; c_num := [(NZ, [Fin 1])]; c_sel := []; c_vec := [(s_ "Position", [[1; 1; 1]])]; c_attrs := attrs |}.
Definition ex_rand : cat :=
  {| c_size := 2; c_num := [(NZ, [Fin four_; Fin four_]); (FKPWeight, [Fin half; Fin half])]; c_sel := [];
     c_vec := [(s_ "Position", [[1; 1; 1]; [two; 1; 1]])]; c_attrs := [] |}.
Definition ex_fkp (attrs : dict) : res fkpcat := fkp_init 1 (ex_data attrs) (Some ex_rand) XNone (XNum (Fin 0)) None NZ.
Example C292_example : exists k c l, fkp_init 1 (ex_data []) (Some ex_rand) XNone (XNum (Fin 0)) (Some two) NZ = Ok k /\
  species_of (ex_data []) (Some ex_rand) k ex_rand c /\ 0 <= two /\ num_col ex_rand NZ = Ok l /\ length l = c_size ex_rand /\
  nth_error l 1 = Some (Fin four_) /\ 0 <= four_ /\ c = k_rand k.
Proof.
  destruct (proj2 (c292_accepted 1 (ex_data []) (Some ex_rand) XNone (XNum (Fin 0)) (Some two) NZ)) as [k E].
  { split; [eexists; reflexivity | ]. intros x X. injection X as <-. eexists. reflexivity. }
  exists k, (k_rand k), [Fin four_; Fin four_]. split; [exact E | ]. split; [right; split; reflexivity | ].
  split; [discriminate | ]. do 3 (split; [reflexivity | ]). split; [discriminate | reflexivity].
Qed.

Section Run.
Variable bbox : fkpcat -> str -> str -> res (list Qc * list Qc).
Variable kernels : list str.
Variable paint : list Qc -> list nat -> str -> bool -> list (list Qc) -> list ext -> list ext.

(* ---- C293 ---- *)
Lemma c293_meta : forall poles m1 m2 same p d r, run kernels paint poles m1 m2 same = Ok p ->
  (same = true -> m2 = m1) -> h_src m2 = h_src m1 ->
  reads m1 m2 (k_data (h_src m1)) d -> reads m1 m2 (k_rand (h_src m1)) r -> over o_comp r <> 0 -> unused m1 reserved ->
  let pre := if same then [] else s_ "first." in
  let alpha := over o_comp d / over o_comp r in
  let nr := alpha * over (fun o => o_nbar o * o_comp o * (o_fkp1 o * o_fkp2 o)) r in
  let shot := over (fun o => o_comp o * o_comp o * (o_fkp1 o * o_fkp2 o)) in
  says (p_attrs p) (pre ++ s_ "data.N") (nq (length (filter o_sel d))) /\
  says (p_attrs p) (pre ++ s_ "randoms.N") (nq (length (filter o_sel r))) /\
  says (p_attrs p) (pre ++ s_ "data.W") (over o_comp d) /\
  says (p_attrs p) (pre ++ s_ "randoms.W") (over o_comp r) /\
  says (p_attrs p) (s_ "alpha") alpha /\
  says (p_attrs p) (s_ "data.norm") (over (fun o => o_nbar o * o_comp o * (o_fkp1 o * o_fkp2 o)) d) /\
  says (p_attrs p) (s_ "randoms.norm") nr /\
  (nr <> 0 -> says (p_attrs p) (s_ "shotnoise") ((shot d + alpha * alpha * shot r) / nr)) /\
  (0 < nr -> exists v, p_norm p = Fin v /\ v * nr = 1).
Proof.
  intros poles m1 m2 same p d r H Hs Hsrc Rd Rr HW U.
  destruct (run_attrs kernels paint _ _ _ _ _ _ _ H Hs Hsrc Rd Rr HW U) as (Q1 & Q2 & Q3 & Q4 & Q5 & Q6 & Q7 & Q8 & Q9 & _). cbv zeta in *.
  assert (E1 : over (fun o => o_nbar o * o_comp o * o_fkp1 o * o_fkp2 o * 1) d = over (fun o => o_nbar o * o_comp o * (o_fkp1 o * o_fkp2 o)) d)
    by (unfold over; f_equal; apply map_ext; intros o; ring).
  assert (E2 : forall a, over (fun o => o_nbar o * o_comp o * o_fkp1 o * o_fkp2 o * a) r = a * over (fun o => o_nbar o * o_comp o * (o_fkp1 o * o_fkp2 o)) r).
  { intros a. unfold over. generalize (filter o_sel r). induction l as [ | o l IH]; cbn [map]; [rewrite !qsum_nil; ring | ]. rewrite !qsum_cons, IH. ring. }
  assert (E3 : forall l, over (fun o => o_comp o * o_comp o * o_fkp1 o * o_fkp2 o) l = over (fun o => o_comp o * o_comp o * (o_fkp1 o * o_fkp2 o)) l)
    by (intros l; unfold over; f_equal; apply map_ext; intros o; ring).
  rewrite E1 in Q6. rewrite !E2 in *. rewrite !E3 in *.
  do 7 (split; [assumption | ]). split; [ | exact Q9]. intros Hn. specialize (Q8 Hn).
  rewrite (Qcmult_comm (_ * _) (over _ r)). exact Q8.
Qed.
Theorem C293_meta : forall poles m1 m2 same p d r, run kernels paint poles m1 m2 same = Ok p ->
  (same = true -> m2 = m1) -> h_src m2 = h_src m1 ->
  reads m1 m2 (k_data (h_src m1)) d -> reads m1 m2 (k_rand (h_src m1)) r -> over o_comp r <> 0 -> unused m1 reserved ->
  let pre := if same then [] else s_ "first." in
  let alpha := over o_comp d / over o_comp r in
  let nr := alpha * over (fun o => o_nbar o * o_comp o * (o_fkp1 o * o_fkp2 o)) r in
  let shot := over (fun o => o_comp o * o_comp o * (o_fkp1 o * o_fkp2 o)) in
  says (p_attrs p) (pre ++ s_ "data.N") (nq (length (filter o_sel d))) /\
  says (p_attrs p) (pre ++ s_ "randoms.N") (nq (length (filter o_sel r))) /\
  says (p_attrs p) (pre ++ s_ "data.W") (over o_comp d) /\
  says (p_attrs p) (pre ++ s_ "randoms.W") (over o_comp r) /\
  says (p_attrs p) (s_ "alpha") alpha /\
  says (p_attrs p) (s_ "data.norm") (over (fun o => o_nbar o * o_comp o * (o_fkp1 o * o_fkp2 o)) d) /\
  says (p_attrs p) (s_ "randoms.norm") nr /\
  (nr <> 0 -> says (p_attrs p) (s_ "shotnoise") ((shot d + alpha * alpha * shot r) / nr)) /\
  (0 < nr -> exists v, p_norm p = Fin v /\ v * nr = 1).
Proof. exact c293_meta. Qed.
End Run.
Print Assumptions C293_meta.

Definition ex_args (size center : list Qc) (comp : bool) : mesh_args :=
  {| t_Nmesh := Some [4; 4; 4]%nat; t_BoxSize := Some size; t_BoxCenter := Some center; t_interlaced := false; t_compensated := comp;
     t_resampler := s_ "cic"; t_fkp := FKPWeight; t_comp := s_ "Weight"; t_sel := s_ "Selection"; t_pos := s_ "Position" |}.
Definition ex_bbox (k : fkpcat) (a b : str) : res (list Qc * list Qc) := Ok ([two; two; two], [1; 1; 1]).
Definition ex_k (attrs : dict) : fkpcat := match ex_fkp attrs with Ok k => k | Err _ => {| k_id := 0; k_data := ex_data []; k_rand := ex_rand; k_nbar := NZ; k_attrs := [] |} end.
Definition ex_mesh (attrs : dict) (id : nat) (size center : list Qc) (comp : bool) : mesh :=
  mesh_init id (ex_k attrs) [4; 4; 4]%nat size center (ex_args size center comp).
Definition twos := [two; two; two]. Definition fours := [four_; four_; four_]. Definition ones : list Qc := [1; 1; 1].
Lemma ex_to_mesh : forall attrs id size center comp, to_mesh ex_bbox id (ex_k attrs) (ex_args size center comp) = Ok (ex_mesh attrs id size center comp).
Proof. intros. reflexivity. Qed.
Definition ex_d : list obj := [{| o_comp := 1; o_fkp1 := 1; o_fkp2 := 1; o_nbar := 1; o_sel := true |}].
Definition ex_o : obj := {| o_comp := 1; o_fkp1 := half; o_fkp2 := half; o_nbar := four_; o_sel := true |}.
Definition ex_r : list obj := [ex_o; ex_o].
Lemma ex_reads : forall attrs id id' s c b s' c' b', let m := ex_mesh attrs id s c b in let m' := ex_mesh attrs id' s' c' b' in
  reads m m' (k_data (h_src m)) ex_d /\ reads m m' (k_rand (h_src m)) ex_r.
Proof.
  intros. split; (split; [reflexivity | ]; do 5 (split; [reflexivity | ]); eexists; split; reflexivity).
Qed.
Lemma ex_W : over o_comp ex_r = two. Proof. apply Qc_is_canon. reflexivity. Qed.
Lemma ex_W0 : over o_comp ex_r <> 0. Proof. rewrite ex_W. discriminate. Qed.
Lemma ex_unused : forall id s c b, unused (ex_mesh [] id s c b) reserved.
Proof.
  intros id s c b k Hk. unfold reserved, counted in Hk. cbn [In] in Hk.
  repeat (destruct Hk as [<- | Hk]; [vm_compute; reflexivity | ]). contradiction.
Qed.
Lemma is_ok_ex : forall A (x : res A), is_ok x = true -> exists y, x = Ok y.
Proof. intros A [y | ] H; [exists y; reflexivity | discriminate]. Qed.

Section Examples.
Variable paint : list Qc -> list nat -> str -> bool -> list (list Qc) -> list ext -> list ext.
Definition kern : list str := [s_ "cic"].
Lemma ex_run : forall b c, exists p, run kern paint [0%Z] (ex_mesh [] 1 twos ones b) (ex_mesh [] 1 twos ones c) true = Ok p.
Proof. intros b c. apply is_ok_ex. destruct b, c; vm_compute; reflexivity. Qed.
Lemma ex_cross : exists p, run kern paint [0%Z] (ex_mesh [] 1 twos ones false) (ex_mesh [] 2 fours ones false) false = Ok p.
Proof. apply is_ok_ex. vm_compute. reflexivity. Qed.

Example C293_example : exists p m, run kern paint [0%Z] m m true = Ok p /\ reads m m (k_data (h_src m)) ex_d /\ reads m m (k_rand (h_src m)) ex_r /\
  over o_comp ex_r <> 0 /\ unused m reserved.
Proof.
  destruct (ex_run false false) as [p E]. exists p, (ex_mesh [] 1 twos ones false). split; [exact E | ].
  destruct (ex_reads [] 1 1 twos ones false twos ones false) as [A B]. split; [exact A | ]. split; [exact B | ]. split; [exact ex_W0 | apply ex_unused].
Qed.

(* ---- C294: run's documentation lists data.shotnoise and randoms.shotnoise ---- *)
Theorem C294_species_shotnoise_refuted : exists m p, to_mesh ex_bbox 1 (ex_k []) (ex_args twos ones false) = Ok m /\
  run kern paint [0%Z] m m true = Ok p /\
  dget (p_attrs p) (s_ "data.shotnoise") = None /\ dget (p_attrs p) (s_ "randoms.shotnoise") = None.
Proof.
  destruct (ex_run false false) as [p E]. exists (ex_mesh [] 1 twos ones false), p. split; [apply ex_to_mesh | ]. split; [exact E | ].
  destruct (ex_reads [] 1 1 twos ones false twos ones false) as [A B].
  destruct (run_attrs kern paint _ _ _ _ _ _ _ E (fun _ => eq_refl) eq_refl A B ex_W0 (ex_unused _ _ _ _)) as (_ & _ & _ & _ & _ & _ & _ & _ & _ & X & Y).
  split; [exact X | exact Y].
Qed.

(* ---- C295: a catalog whose meta-data has an entry N ---- *)
Definition five : Qc := Q2Qc 5.
Definition ex_N : dict := [(s_ "N", XNum (Fin five)); (s_ "norm", XNum (Fin two))].
Theorem C295_names_refuted : exists k m p, ex_fkp ex_N = Ok k /\ to_mesh ex_bbox 1 k (ex_args twos ones false) = Ok m /\
  run kern paint [0%Z] m m true = Ok p /\
  reads m m (k_data (h_src m)) ex_d /\ length (filter o_sel ex_d) = 1%nat /\ over (fun o => o_nbar o * o_comp o * (o_fkp1 o * o_fkp2 o)) ex_d = 1 /\
  says (p_attrs p) (s_ "data.N") five /\ says (p_attrs p) (s_ "data.norm") two.
Proof.
  assert (E : exists p, run kern paint [0%Z] (ex_mesh ex_N 1 twos ones false) (ex_mesh ex_N 1 twos ones false) true = Ok p)
    by (apply is_ok_ex; vm_compute; reflexivity).
  destruct E as [p E]. exists (ex_k ex_N), (ex_mesh ex_N 1 twos ones false), p. split; [reflexivity | ]. split; [apply ex_to_mesh | ].
  split; [exact E | ]. split; [apply (ex_reads ex_N 1 1 twos ones false twos ones false) | ]. split; [reflexivity | ].
  split; [apply Qc_is_canon; reflexivity | ].
  destruct (run_inv kern paint _ _ _ _ _ E) as (_ & _ & _ & a & b & box & center & pad & f1 & al & f2 & al2 & nd & nr & sd & sr &
    Sb & P1 & P2 & Eb & Ec & C1 & A1 & C2 & A2 & _ & N1 & N2 & _ & S1 & S2 & Pn & _ & Pa). cbv zeta in Pa.
  destruct (same_box_self _ _ _ Sb) as [-> ->]. destruct (compute_inv paint _ _ C1) as ([gf meta] & G & M). cbn [snd] in M.
  assert (ND : NoDup (map fst (snd f1))).
  { rewrite M. apply dupdate_nodup. destruct (field_inv paint _ _ _ G) as (Wd & Wr & fd & pr & fr & _ & _ & F1 & _ & _ & ->).
    apply meta_nodup. destruct fd as [fd pd]. destruct (species_inv paint _ _ _ _ F1) as (? & ? & ? & ? & ? & ? & ? & _ & _ & _ & _ & _ & _ & _ & _ & ->).
    apply painted_nodup. }
  assert (V : forall k v, In (k, v) [(s_ "data.N", XNum (Fin five)); (s_ "data.norm", XNum (Fin two))] -> dget (snd f1) k = Some v).
  { intros k v Hk. rewrite M, P1.
    assert (D : dget (h_attrs (uncompensate (ex_mesh ex_N 1 twos ones false))) k = Some v)
      by (cbn [In] in Hk; destruct Hk as [Hk | [Hk | []]]; injection Hk as <- <-; vm_compute; reflexivity).
    destruct (dupdate_in (h_attrs (uncompensate (ex_mesh ex_N 1 twos ones false))) meta k ltac:(congruence)) as (w & W1 & W2).
    rewrite W1. f_equal.
    assert (NA : NoDup (map fst (h_attrs (uncompensate (ex_mesh ex_N 1 twos ones false))))).
    { unfold uncompensate, ex_mesh, mesh_init. cbn [h_attrs]. repeat first [apply dset_nodup | apply dupdate_nodup]. constructor. }
    assert (D2 := dget_in_some _ _ _ _ NA W2). congruence. }
  unfold says. rewrite Pa. split.
  - apply (copy_same _ _ []); [exact ND | apply V; left; reflexivity | reflexivity].
  - apply (copy_same _ _ []); [exact ND | apply V; right; left; reflexivity | reflexivity].
Qed.

(* ---- C296: the sum of the painted field ---- *)
Theorem C296_total : forall m1 m2 d r f meta, reads m1 m2 (k_data (h_src m1)) d -> reads m1 m2 (k_rand (h_src m1)) r ->
  num_col (k_data (h_src m1)) (s_ "Value") = Ok (map (fun _ => Fin 1) d) ->
  num_col (k_rand (h_src m1)) (s_ "Value") = Ok (map (fun _ => Fin 1) r) ->
  over o_comp r <> 0 -> conserves paint (h_n m1) -> cell_volume m1 <> 0 -> real_field paint m1 = Ok (f, meta) ->
  exists t, esum f = Fin t /\
    t * cell_volume m1 = over (fun o => o_comp o * o_fkp1 o) d - over o_comp d / over o_comp r * over (fun o => o_comp o * o_fkp1 o) r.
Proof. exact (field_total paint). Qed.
Lemma over_const : forall w l, (forall o, In o l -> o_sel o = true -> o_fkp1 o = w) -> over (fun o => o_comp o * o_fkp1 o) l = w * over o_comp l.
Proof.
  intros w l. unfold over. induction l as [ | o l IH]; intros H; [cbn [filter map]; rewrite !qsum_nil; ring | ].
  specialize (IH (fun x Hx => H x (or_intror Hx))). cbn [filter]. destruct (o_sel o) eqn:E; cbn [map]; [ | exact IH].
  rewrite !qsum_cons, IH, (H o (or_introl eq_refl) E). ring.
Qed.
(* equal FKP weights: the field has no mean *)
Theorem C296_zero_mean : forall m1 m2 d r f meta w, reads m1 m2 (k_data (h_src m1)) d -> reads m1 m2 (k_rand (h_src m1)) r ->
  num_col (k_data (h_src m1)) (s_ "Value") = Ok (map (fun _ => Fin 1) d) ->
  num_col (k_rand (h_src m1)) (s_ "Value") = Ok (map (fun _ => Fin 1) r) ->
  over o_comp r <> 0 -> conserves paint (h_n m1) -> cell_volume m1 <> 0 -> real_field paint m1 = Ok (f, meta) ->
  (forall o, In o (d ++ r) -> o_sel o = true -> o_fkp1 o = w) -> esum f = Fin 0.
Proof.
  intros m1 m2 d r f meta w Rd Rr Vd Vr HW HC V0 H Hw.
  destruct (field_total paint _ _ _ _ _ _ Rd Rr Vd Vr HW HC V0 H) as (t & E & T). rewrite E. f_equal.
  rewrite (over_const w d) in T by (intros o Ho; apply Hw; apply in_or_app; left; exact Ho).
  rewrite (over_const w r) in T by (intros o Ho; apply Hw; apply in_or_app; right; exact Ho).
  assert (Z : t * cell_volume m1 = 0) by (rewrite T; field; exact HW).
  destruct (Qcmult_integral _ _ Z) as [X | X]; [exact X | contradiction].
Qed.

(* all in one cell *)
Definition one_cell (box : list Qc) (n : list nat) (r : str) (i : bool) (pos : list (list Qc)) (ms : list ext) : list ext :=
  esum ms :: repeat (Fin 0) (Nat.pred (fold_right Nat.mul 1%nat n)).
Example C296_example : exists m f meta, real_field one_cell m = Ok (f, meta) /\ reads m m (k_data (h_src m)) ex_d /\ reads m m (k_rand (h_src m)) ex_r /\
  num_col (k_data (h_src m)) (s_ "Value") = Ok (map (fun _ => Fin 1) ex_d) /\ num_col (k_rand (h_src m)) (s_ "Value") = Ok (map (fun _ => Fin 1) ex_r) /\
  over o_comp ex_r <> 0 /\ cell_volume m <> 0 /\
  conserves one_cell (h_n m).
Proof.
  assert (E : exists x, real_field one_cell (ex_mesh [] 1 twos ones false) = Ok x) by (apply is_ok_ex; vm_compute; reflexivity).
  destruct E as [[f meta] E]. exists (ex_mesh [] 1 twos ones false), f, meta. split; [exact E | ].
  destruct (ex_reads [] 1 1 twos ones false twos ones false) as [A B]. split; [exact A | ]. split; [exact B | ].
  split; [reflexivity | ]. split; [reflexivity | ]. split; [exact ex_W0 | ].
  split. { assert (V : cell_volume (ex_mesh [] 1 twos ones false) = Q2Qc (1 # 8)) by (apply Qc_is_canon; reflexivity). rewrite V. discriminate. }
  intros box r i pos ms _. exists (qsum ms :: repeat 0 63). split; [ | split].
  - unfold one_cell. rewrite qsum_fin. change (h_n (ex_mesh [] 1 twos ones false)) with [4; 4; 4]%nat. reflexivity.
  - reflexivity.
  - rewrite qsum_cons. assert (Z : forall n, qsum (repeat 0 n) = 0) by (induction n as [ | n IH]; [reflexivity | cbn [repeat]; rewrite qsum_cons, IH; ring]).
    rewrite Z. ring.
Qed.

Example C296_zero_example : exists k m f meta, fkp_init 1 (ex_data []) (Some (ex_data [])) XNone (XNum (Fin 0)) None NZ = Ok k /\
  to_mesh ex_bbox 1 k (ex_args twos ones false) = Ok m /\ real_field one_cell m = Ok (f, meta) /\
  reads m m (k_data (h_src m)) ex_d /\ reads m m (k_rand (h_src m)) ex_d /\ over o_comp ex_d <> 0 /\ (forall o, In o (ex_d ++ ex_d) -> o_sel o = true -> o_fkp1 o = 1).
Proof.
  eexists. eexists.
  assert (E : exists x, real_field one_cell (mesh_init 1 (match fkp_init 1 (ex_data []) (Some (ex_data [])) XNone (XNum (Fin 0)) None NZ with Ok k => k | Err _ => ex_k [] end)
    [4; 4; 4]%nat twos ones (ex_args twos ones false)) = Ok x) by (apply is_ok_ex; vm_compute; reflexivity).
  destruct E as [[f meta] E]. exists f, meta. split; [reflexivity | ]. split; [reflexivity | ]. split; [exact E | ].
  split; [split; [reflexivity | ]; do 5 (split; [reflexivity | ]); eexists; split; reflexivity | ].
  split; [split; [reflexivity | ]; do 5 (split; [reflexivity | ]); eexists; split; reflexivity | ].
  split; [discriminate | ]. intros o Ho _. cbn [ex_d app In] in Ho. destruct Ho as [<- | [<- | []]]; reflexivity.
Qed.

(* ---- C297: which inputs are accepted, and the common box ---- *)
Lemma valid_iff : forall a b, valid_cross a b = true <->
  k_id (h_src a) = k_id (h_src b) /\ h_sel a = h_sel b /\ h_comp a = h_comp b /\ h_nbar a = h_nbar b.
Proof.
  intros a b. unfold valid_cross. rewrite Bool.andb_true_iff, Nat.eqb_eq, Bool.negb_true_iff. cbn [existsb].
  rewrite !Bool.orb_false_iff, !Bool.negb_false_iff, !str_eqb_true. intuition congruence.
Qed.
Theorem C297_refused : forall poles m1 m2 same,
  k_id (h_src m1) <> k_id (h_src m2) \/ h_sel m1 <> h_sel m2 \/ h_comp m1 <> h_comp m2 \/ h_nbar m1 <> h_nbar m2 ->
  run kern paint poles m1 m2 same = Err NotImplementedError.
Proof.
  intros poles m1 m2 same H. unfold run. destruct (valid_cross m1 m2) eqn:E; [ | reflexivity].
  apply valid_iff in E. exfalso. intuition congruence.
Qed.
Theorem C297_inputs : forall bb id x n m, cast_mesh bb id x n = Ok m ->
  (exists k, x = ICat k /\ to_mesh bb id k (default_args n) = Ok m) \/ (x = IMesh m) /\ (forall l, n = Some l -> dget (h_attrs m) (s_ "Nmesh") = Some (XNats l)).
Proof.
  intros bb id x n m H. unfold cast_mesh in H. destruct x as [k | m' | ]; [ | | discriminate].
  - left. exists k. split; [reflexivity | ]. destruct (to_mesh bb id k (default_args n)) as [g | ]; [ | discriminate]. cbn [rbind] in H.
    destruct n as [l | ]; [ | exact H]. destruct (dget (h_attrs g) (s_ "Nmesh")) as [[ | | l' | | | | ] | ]; try discriminate.
    destruct (list_eq_dec Nat.eq_dec l' l); [exact H | discriminate].
  - right. cbn [rbind] in H. destruct n as [l | ]; [ | split; [congruence | discriminate]].
    destruct (dget (h_attrs m') (s_ "Nmesh")) as [[ | | l' | | | | ] | ] eqn:E; try discriminate.
    destruct (list_eq_dec Nat.eq_dec l' l) as [-> | ]; [ | discriminate]. assert (m' = m) by congruence. subst m'. split; [reflexivity | ].
    intros l0 X. injection X as <-. exact E.
Qed.
Theorem C297_meshes : forall bb id m n l, dget (h_attrs m) (s_ "Nmesh") = Some (XNats n) ->
  (l = None \/ l = Some n <-> cast_mesh bb id (IMesh m) l = Ok m) /\ (forall n', l = Some n' -> n' <> n -> cast_mesh bb id (IMesh m) l = Err ValueError) /\ cast_mesh bb id IOther l = Err TypeError.
Proof.
  intros bb id m n l D. unfold cast_mesh. cbn [rbind]. split; [ | split; [ | reflexivity]].
  - destruct l as [l | ]; [ | split; [reflexivity | left; reflexivity]]. rewrite D. destruct (list_eq_dec Nat.eq_dec n l) as [-> | NE]; [split; [reflexivity | right; reflexivity] | ].
    split; [intros [X | X]; congruence | discriminate].
  - intros n' -> NE. rewrite D. destruct (list_eq_dec Nat.eq_dec n n'); [congruence | reflexivity].
Qed.

Example C297_example : h_nbar (ex_mesh [] 1 twos ones false) <> s_ "NBAR" /\
  exists m, cast_mesh ex_bbox 3 (ICat (ex_k [])) (Some [4; 4; 4]%nat) = Ok m.
Proof. split; [discriminate | ]. eexists. reflexivity. Qed.

(* two meshes of one catalog in boxes of different sizes: afterwards both have, along each axis, the larger box with its centre *)
Definition axis_box (m : mesh) (i : nat) (s c : Qc) : Prop :=
  exists b q, dget (h_attrs m) (s_ "BoxSize") = Some (XVec b) /\ dget (h_attrs m) (s_ "BoxCenter") = Some (XVec q) /\
  nth_error b i = Some s /\ nth_error q i = Some c.
Lemma attr_vec_ok : forall d k l, attr_vec d k = Ok l <-> dget d k = Some (XVec l).
Proof. intros d k l. unfold attr_vec. destruct (dget d k) as [[ | | | | | | ] | ]; split; intros H; try discriminate; congruence. Qed.
Theorem C297_box : forall poles m1 m2 p i s1 c1 s2 c2, run kern paint poles m1 m2 false = Ok p ->
  axis_box m1 i s1 c1 -> axis_box m2 i s2 c2 -> (forall b, dget (h_attrs m1) (s_ "BoxSize") = Some (XVec b) -> dget (h_attrs m2) (s_ "BoxSize") <> Some (XVec b)) ->
  exists s c, axis_box (p_first p) i s c /\ axis_box (p_second p) i s c /\ s1 <= s /\ s2 <= s /\ ((s = s1 /\ c = c1) \/ (s = s2 /\ c = c2)).
Proof.
  intros poles m1 m2 p i s1 c1 s2 c2 H (b1 & q1 & B1 & Q1 & S1 & C1) (b2 & q2 & B2 & Q2 & S2 & C2) D.
  destruct (run_inv kern paint _ _ _ _ _ H) as (_ & _ & _ & a & b & box & center & pad & f1 & al & f2 & al2 & nd & nr & sd & sr &
    Sb & P1 & P2 & _). unfold same_box in Sb.
  rewrite (proj2 (attr_vec_ok _ _ _) B1) in Sb. cbn [rbind] in Sb. rewrite (proj2 (attr_vec_ok _ _ _) B2) in Sb. cbn [rbind] in Sb.
  assert (E : vec_eqb b1 b2 = false). { unfold vec_eqb. destruct (list_eq_dec Qc_eq_dec b1 b2) as [-> | ]; [exfalso; exact (D b2 B1 B2) | reflexivity]. }
  rewrite E in Sb. rewrite (proj2 (attr_vec_ok _ _ _) Q1) in Sb. cbn [rbind] in Sb. rewrite (proj2 (attr_vec_ok _ _ _) Q2) in Sb. cbn [rbind] in Sb. cbv zeta in Sb.
  assert (Ea := f_equal (fun r => match r with Ok x => x | Err _ => (a, b) end) Sb). cbn beta iota in Ea.
  assert (Eb := f_equal snd Ea). apply (f_equal fst) in Ea. cbn [fst snd] in Ea, Eb.
  assert (Z1 : nth_error (combine (combine b1 q1) (combine b2 q2)) i = Some ((s1, c1), (s2, c2))).
  { assert (G : forall X Y (l : list X) (l' : list Y) j x y, nth_error l j = Some x -> nth_error l' j = Some y -> nth_error (combine l l') j = Some (x, y)).
    { induction l as [ | u l IH]; intros [ | v l'] [ | j] x y X1 Y1; try discriminate; cbn [combine nth_error] in *; [congruence | apply IH; assumption]. }
    apply G; apply G; assumption. }
  set (bx := joint_box false (s1, c1) (s2, c2)).
  exists (fst bx), (snd bx).
  assert (A : forall m, axis_box (uncompensate (recenter m (fst (joint b1 b2 q1 q2)) (snd (joint b1 b2 q1 q2)))) i (fst bx) (snd bx)).
  { intros m. exists (fst (joint b1 b2 q1 q2)), (snd (joint b1 b2 q1 q2)). unfold uncompensate, recenter. cbn [h_attrs].
    split; [rewrite !dget_set_other by discriminate; apply dget_set_same | ]. split; [rewrite dget_set_other by discriminate; apply dget_set_same | ].
    unfold joint. cbn [fst snd]. rewrite !nth_error_map, Z1. split; reflexivity. }
  split; [rewrite P1, <- Ea; apply A | ]. split; [rewrite P2, <- Eb; apply A | ].
  unfold bx, joint_box, qltb. cbn [fst]. destruct (Qclt_le_dec s1 s2) as [L | L]; cbn [fst snd].
  - split; [apply Qclt_le_weak; exact L | ]. split; [apply Qcle_refl | right; split; reflexivity].
  - split; [apply Qcle_refl | ]. split; [exact L | left; split; reflexivity].
Qed.
Lemma ex_axis : forall id s b, axis_box (ex_mesh [] id [s; s; s] ones b) 0 s 1.
Proof. intros id s b. exists [s; s; s], ones. split; [reflexivity | ]. split; [reflexivity | ]. split; reflexivity. Qed.
Example C297_box_example : exists p, run kern paint [0%Z] (ex_mesh [] 1 twos ones false) (ex_mesh [] 2 fours ones false) false = Ok p /\
  axis_box (ex_mesh [] 1 twos ones false) 0 two 1 /\ axis_box (ex_mesh [] 2 fours ones false) 0 four_ 1 /\
  (forall b, dget (h_attrs (ex_mesh [] 1 twos ones false)) (s_ "BoxSize") = Some (XVec b) -> dget (h_attrs (ex_mesh [] 2 fours ones false)) (s_ "BoxSize") <> Some (XVec b)).
Proof.
  destruct ex_cross as [p E]. exists p. split; [exact E | ]. split; [apply ex_axis | ]. split; [apply ex_axis | ].
  intros b B. assert (T : b = twos) by (change (Some (XVec twos) = Some (XVec b)) in B; congruence). subst b.
  change (Some (XVec fours) <> Some (XVec twos)). intros X. assert (Y : fours = twos) by congruence.
  assert (W := f_equal (fun l => match l with x :: _ => x | [] => 0 end) Y). cbn beta iota in W. discriminate W.
Qed.

(* ---- C298: the cells of the joint box do not get its volume ---- *)
Theorem C298_joint_cells_refuted : exists m1 m2 p b, to_mesh ex_bbox 1 (ex_k []) (ex_args twos ones false) = Ok m1 /\
  to_mesh ex_bbox 2 (ex_k []) (ex_args fours ones false) = Ok m2 /\ run kern paint [0%Z] m1 m2 false = Ok p /\
  dget (p_attrs p) (s_ "BoxSize") = Some (XVec b) /\ dget (h_attrs (p_first p)) (s_ "BoxSize") = Some (XVec b) /\
  prod b = Q2Qc 64 /\ cells (h_n (p_first p)) = Q2Qc 64 /\
  cell_volume (p_first p) = Q2Qc (1 # 8) /\ cell_volume (p_second p) = 1.
Proof.
  destruct ex_cross as [p E]. exists (ex_mesh [] 1 twos ones false), (ex_mesh [] 2 fours ones false), p, fours.
  split; [apply ex_to_mesh | ]. split; [apply ex_to_mesh | ]. split; [exact E | ].
  destruct (run_inv kern paint _ _ _ _ _ E) as (_ & _ & _ & a & b & box & center & pad & f1 & al & f2 & al2 & nd & nr & sd & sr &
    Sb & P1 & P2 & Eb & Ec & _ & _ & _ & _ & _ & _ & _ & _ & _ & _ & _ & _ & Pa). cbv zeta in Pa.
  assert (Sb' : same_box (ex_mesh [] 1 twos ones false) (ex_mesh [] 2 fours ones false) =
    Ok (recenter (ex_mesh [] 1 twos ones false) fours ones, recenter (ex_mesh [] 2 fours ones false) fours ones)) by reflexivity.
  assert (Ea : (recenter (ex_mesh [] 1 twos ones false) fours ones, recenter (ex_mesh [] 2 fours ones false) fours ones) = (a, b)) by congruence.
  assert (Eb2 := f_equal snd Ea). apply (f_equal fst) in Ea. cbn [fst snd] in Ea, Eb2. subst a b.
  assert (Bx : dget (h_attrs (p_first p)) (s_ "BoxSize") = Some (XVec fours)) by (rewrite P1; reflexivity).
  assert (box = fours) by (apply attr_vec_ok in Eb; congruence). subst box.
  split. { rewrite Pa. rewrite !copy_other by (intros x _ _ X; discriminate X). unfold four, base_attrs. rewrite !dget_set_other by discriminate. reflexivity. }
  split; [exact Bx | ]. split; [apply Qc_is_canon; reflexivity | ].
  rewrite P1, P2. split; [apply Qc_is_canon; reflexivity | ]. split; apply Qc_is_canon; reflexivity.
Qed.

(* ---- C299: without randoms the shot noise is not a number ---- *)
Definition ex_alone : fkpcat :=
  match fkp_init 1 (ex_data []) None XNone (XNum (Fin 0)) None NZ with Ok k => k | Err _ => ex_k [] end.
Theorem C299_no_randoms_refuted : exists m p, fkp_init 1 (ex_data []) None XNone (XNum (Fin 0)) None NZ = Ok ex_alone /\
  to_mesh ex_bbox 1 ex_alone (ex_args twos ones false) = Ok m /\ run kern paint [0%Z] m m true = Ok p /\
  dget (p_attrs p) (s_ "shotnoise") = Some (XNum NaN) /\ p_norm p = Fin 1.
Proof.
  set (m := mesh_init 1 ex_alone [4; 4; 4]%nat twos ones (ex_args twos ones false)).
  assert (E : exists p, run kern paint [0%Z] m m true = Ok p) by (apply is_ok_ex; vm_compute; reflexivity).
  destruct E as [p E]. exists m, p. split; [reflexivity | ]. split; [reflexivity | ]. split; [exact E | ].
  apply (run_norandoms kern paint [0%Z] m p ex_d E).
  - split; [reflexivity | ]. do 5 (split; [reflexivity | ]). eexists. split; reflexivity.
  - split; [reflexivity | ]. do 5 (split; [reflexivity | ]). eexists. split; reflexivity.
  - reflexivity.
Qed.

(* ---- C300: the flag compensated of the mesh is ignored, and cleared ---- *)
Theorem C300_compensated_refuted : exists m m' p p', to_mesh ex_bbox 1 (ex_k []) (ex_args twos ones false) = Ok m /\
  to_mesh ex_bbox 1 (ex_k []) (ex_args twos ones true) = Ok m' /\
  run kern paint [0%Z] m m true = Ok p /\ run kern paint [0%Z] m' m' true = Ok p' /\
  dget (h_attrs m) (s_ "compensated") = Some (XBool false) /\ fst (p_kernels p) = Some (s_ "cic", false) /\
  dget (h_attrs m') (s_ "compensated") = Some (XBool true) /\ dget (h_attrs (p_first p')) (s_ "compensated") = Some (XBool false).
Proof.
  destruct (ex_run false false) as [p E]. destruct (ex_run true true) as [p' E'].
  exists (ex_mesh [] 1 twos ones false), (ex_mesh [] 1 twos ones true), p, p'. split; [apply ex_to_mesh | ]. split; [apply ex_to_mesh | ].
  split; [exact E | ]. split; [exact E' | ]. split; [reflexivity | ].
  destruct (run_inv kern paint _ _ _ _ _ E) as (_ & _ & _ & a & b & box & center & pad & f1 & al & f2 & al2 & nd & nr & sd & sr & Sb & P1 & P2 & Hx).
  destruct (same_box_self _ _ _ Sb) as [-> ->].
  destruct Hx as (_ & _ & _ & _ & _ & _ & _ & _ & _ & _ & _ & _ & _ & Pk & _). split; [rewrite Pk, P1; reflexivity | ]. split; [reflexivity | ].
  destruct (run_inv kern paint _ _ _ _ _ E') as (_ & _ & _ & a & b & box' & center' & pad' & f1' & al' & f2' & al2' & nd' & nr' & sd' & sr' & Sb' & P1' & _).
  destruct (same_box_self _ _ _ Sb') as [-> ->]. rewrite P1'. reflexivity.
Qed.

(* ---- C301: to_mesh ---- *)
Theorem C301_to_mesh : forall bb id k a m, to_mesh bb id k a = Ok m ->
  (forall c, In c [k_data k; k_rand k] -> (exists l, num_col c (t_fkp a) = Ok l) /\ (exists l, num_col c (t_comp a) = Ok l)) /\
  exists n size center box0, bb k (t_pos a) (t_sel a) = Ok box0 /\
    (t_Nmesh a = Some n \/ t_Nmesh a = None /\ dget (k_attrs k) (s_ "Nmesh") = Some (XNats n)) /\
    (t_BoxSize a = Some size \/ t_BoxSize a = None /\ size = fst box0) /\
    (t_BoxCenter a = Some center \/ t_BoxCenter a = None /\ center = snd box0) /\
    dget (h_attrs m) (s_ "Nmesh") = Some (XNats n) /\ h_n m = n /\
    dget (h_attrs m) (s_ "BoxSize") = Some (XVec size) /\ h_box m = size /\
    (dget (k_attrs k) (s_ "BoxCenter") = None -> dget (h_attrs m) (s_ "BoxCenter") = Some (XVec center)) /\
    dget (h_attrs m) (s_ "resampler") = Some (XStr (t_resampler a)) /\ h_nbar m = k_nbar k /\ h_src m = k.
Proof.
  intros bb id k a m H. unfold to_mesh in H.
  destruct (forallb (fun c => has_num c (t_fkp a) && has_num c (t_comp a)) [k_data k; k_rand k]) eqn:Ef; [ | discriminate]. cbn [negb] in H.
  split.
  { intros c Hc. assert (G := proj1 (forallb_forall _ _) Ef c Hc). cbv beta in G. apply andb_prop in G. destruct G as [G1 G2]. unfold has_num in G1, G2.
    split; apply is_ok_ex; assumption. }
  destruct (match t_Nmesh a with Some n => Ok n | None => match dget (k_attrs k) (s_ "Nmesh") with Some (XNats n) => Ok n | Some _ => Err OutOfContract | None => Err ValueError end end) as [n | ] eqn:En; [ | discriminate].
  cbn [rbind] in H. destruct (bb k (t_pos a) (t_sel a)) as [b | ]; [ | discriminate]. cbn [rbind] in H. cbv zeta in H.
  match type of H with Ok ?x = _ => assert (E : m = x) by congruence end. clear H. subst m.
  exists n, (match t_BoxSize a with Some s => s | None => fst b end), (match t_BoxCenter a with Some c => c | None => snd b end), b. split; [reflexivity | ]. split.
  { destruct (t_Nmesh a) as [n' | ]; [left; congruence | right; split; [reflexivity | ]].
    destruct (dget (k_attrs k) (s_ "Nmesh")) as [[ | | l | | | | ] | ]; try discriminate. congruence. }
  split; [ destruct (t_BoxSize a); [left; reflexivity | right; split; reflexivity] | ].
  split; [ destruct (t_BoxCenter a); [left; reflexivity | right; split; reflexivity] | ].
  unfold mesh_init. cbn [h_attrs h_n h_box h_nbar h_src].
  split; [rewrite !dget_set_other by discriminate; apply dget_set_same | ]. split; [reflexivity | ].
  split; [rewrite !dget_set_other by discriminate; apply dget_set_same | ]. split; [reflexivity | ].
  split. { intros D. rewrite !dget_set_other by discriminate. rewrite dupdate_other by exact D. apply dget_set_same. }
  split; [apply dget_set_same | ]. split; reflexivity.
Qed.
Example C301_example : exists m, to_mesh ex_bbox 1 (ex_k []) (ex_args twos ones false) = Ok m /\ dget (k_attrs (ex_k [])) (s_ "BoxCenter") = None.
Proof. eexists. split; [apply ex_to_mesh | reflexivity]. Qed.
(* a centre among the meta-data of the catalog wins over the argument *)
Definition with_center (c : list Qc) : fkpcat :=
  {| k_id := 1; k_data := k_data (ex_k []); k_rand := k_rand (ex_k []); k_nbar := NZ; k_attrs := dset (k_attrs (ex_k [])) (s_ "BoxCenter") (XVec c) |}.
Theorem C302_center_refuted : exists m, to_mesh ex_bbox 1 (with_center twos) (ex_args twos ones false) = Ok m /\
  t_BoxCenter (ex_args twos ones false) = Some ones /\ dget (h_attrs m) (s_ "BoxCenter") = Some (XVec twos) /\ ones <> twos.
Proof.
  eexists. split; [reflexivity | ]. split; [reflexivity | ]. split; [reflexivity | ]. intros X.
  assert (W := f_equal (fun l => match l with x :: _ => x | [] => 0 end) X). cbn beta iota in W. discriminate W.
Qed.
End Examples.
Print Assumptions C294_species_shotnoise_refuted.
Print Assumptions C295_names_refuted.
Print Assumptions C296_total.
Print Assumptions C296_zero_mean.
Print Assumptions C297_refused.
Print Assumptions C297_inputs.
Print Assumptions C297_meshes.
Print Assumptions C297_box.
Print Assumptions C298_joint_cells_refuted.
Print Assumptions C299_no_randoms_refuted.
Print Assumptions C300_compensated_refuted.
Print Assumptions C301_to_mesh.
Print Assumptions C302_center_refuted.
