From Coq Require Import Ascii String QArith Qcanon Lia.
From Verif Require Import Base BaseProofs Num NamesModel NamesProofs TomProofs SurveyModel FkpModel FkpSpec.
Local Notation length := List.length.
Local Notation concat := List.concat.
Local Open Scope Qc_scope.

(* ---- dictionaries ---- *)
Lemma dupdate_other : forall e (d : dict) k, dget e k = None -> dget (dupdate d e) k = dget d k.
Proof.
  induction e as [ | [x v] e IH]; intros d k H; [reflexivity | ].
  cbn [dget] in H. destruct (str_eq_dec x k) as [-> | N]; [discriminate | ].
  change (dupdate d ((x, v) :: e)) with (dupdate (dset d x v) e). rewrite IH by exact H.
  apply dget_set_other. congruence.
Qed.
Lemma dupdate_in : forall e (d : dict) k, dget e k <> None -> exists v, dget (dupdate d e) k = Some v /\ In (k, v) e.
Proof.
  induction e as [ | [x v] e IH]; intros d k H; [cbn [dget] in H; congruence | ].
  change (dupdate d ((x, v) :: e)) with (dupdate (dset d x v) e).
  destruct (dget e k) eqn:E.
  - destruct (IH (dset d x v) k ltac:(congruence)) as [w [A B]]. exists w. split; [exact A | right; exact B].
  - cbn [dget] in H. destruct (str_eq_dec x k) as [-> | N]; [ | congruence].
    exists v. split; [ | left; reflexivity]. rewrite dupdate_other by exact E. apply dget_set_same.
Qed.
Lemma dset_keys : forall V (d : list (str * V)) k v x, In x (map fst (dset d k v)) <-> x = k \/ In x (map fst d).
Proof.
  induction d as [ | [y w] d IH]; intros k v x; cbn [dset map fst In]; [intuition congruence | ].
  destruct (str_eq_dec y k) as [-> | N]; cbn [map fst In]; [intuition congruence | ]. rewrite IH. intuition congruence.
Qed.
Lemma dset_nodup : forall V (d : list (str * V)) k v, NoDup (map fst d) -> NoDup (map fst (dset d k v)).
Proof.
  induction d as [ | [y w] d IH]; intros k v H; cbn [dset map fst]; [constructor; [intros [] | constructor] | ].
  cbn [map fst] in H. inversion H as [ | a b Hn Hd]; subst.
  destruct (str_eq_dec y k) as [-> | N]; cbn [map fst]; constructor; [exact Hn | exact Hd | | apply IH; exact Hd].
  rewrite dset_keys. intros [E | E]; [congruence | exact (Hn E)].
Qed.
Lemma ddel_keys : forall V (d : list (str * V)) k x, In x (map fst (ddel d k)) -> In x (map fst d).
Proof.
  induction d as [ | [y w] d IH]; intros k x; cbn [ddel map fst]; [intros [] | ].
  destruct (str_eq_dec y k) as [-> | N]; cbn [map fst In]; [right; apply (IH k); assumption | ].
  intros [E | E]; [left; exact E | right; apply (IH k); exact E].
Qed.
Lemma ddel_nodup : forall V (d : list (str * V)) k, NoDup (map fst d) -> NoDup (map fst (ddel d k)).
Proof.
  induction d as [ | [y w] d IH]; intros k H; cbn [ddel map fst]; [constructor | ].
  cbn [map fst] in H. inversion H as [ | a b Hn Hd]; subst.
  destruct (str_eq_dec y k) as [-> | N]; cbn [map fst]; [apply IH; exact Hd | ]. constructor; [ | apply IH; exact Hd].
  intros E. apply Hn. apply (ddel_keys _ _ k). exact E.
Qed.
Lemma dupdate_nodup : forall e (d : dict), NoDup (map fst d) -> NoDup (map fst (dupdate d e)).
Proof.
  induction e as [ | [x v] e IH]; intros d H; [exact H | ].
  change (dupdate d ((x, v) :: e)) with (dupdate (dset d x v) e). apply IH. apply dset_nodup. exact H.
Qed.

Definition kept (k : str) : bool := NamesModel.starts (s_ "data.") k || NamesModel.starts (s_ "randoms.") k.
Lemma copy_step : forall (a : dict) x v e pre, copy_meta a ((x, v) :: e) pre = copy_meta (if kept x then dset a (pre ++ x) v else a) e pre.
Proof. reflexivity. Qed.
Lemma copy_other : forall e (a : dict) pre k, (forall x, In x (map fst e) -> kept x = true -> pre ++ x <> k) ->
  dget (copy_meta a e pre) k = dget a k.
Proof.
  induction e as [ | [x v] e IH]; intros a pre k H; [reflexivity | ].
  rewrite copy_step, IH by (intros y Hy; apply H; right; exact Hy).
  destruct (kept x) eqn:E; [ | reflexivity]. apply dget_set_other. intros D. apply (H x); [left; reflexivity | exact E | congruence].
Qed.
Lemma copy_same : forall e (a : dict) pre k v, NoDup (map fst e) -> dget e k = Some v -> kept k = true ->
  dget (copy_meta a e pre) (pre ++ k) = Some v.
Proof.
  induction e as [ | [x w] e IH]; intros a pre k v N G K; [discriminate | ].
  rewrite copy_step. cbn [map fst] in N. inversion N as [ | b l Hn Hd]; subst. cbn [dget] in G.
  destruct (str_eq_dec x k) as [-> | D].
  - injection G as <-. rewrite K. rewrite copy_other; [apply dget_set_same | ].
    intros y Hy _ E. apply app_inv_head in E. subst y. exact (Hn Hy).
  - apply IH; assumption.
Qed.

(* ---- numbers ---- *)
Lemma esum_fin : forall A (f : A -> Qc) l, esum (map (fun o => Fin (f o)) l) = Fin (qsum (map f l)).
Proof. induction l as [ | x l IH]; [reflexivity | ]. cbn [map esum fold_right]. unfold esum in IH. rewrite IH. reflexivity. Qed.
Lemma ediv_fin : forall a b, b <> 0 -> ediv (Fin a) (Fin b) = Fin (a / b).
Proof. intros a b H. cbn [ediv]. destruct (Qc_eq_dec b 0); [contradiction | reflexivity]. Qed.
Lemma pick_map : forall A (f : obj -> A) objs, pick (map o_sel objs) (map f objs) = map f (filter o_sel objs).
Proof.
  unfold pick. induction objs as [ | o objs IH]; [reflexivity | ]. cbn [map combine filter].
  change (snd (f o, o_sel o)) with (o_sel o). destruct (o_sel o); cbn [map]; rewrite IH; reflexivity.
Qed.
Lemma emap2_map : forall A (f g : A -> ext) h l, emap2 h (map f l) (map g l) = map (fun o => h (f o) (g o)) l.
Proof. unfold emap2. induction l as [ | x l IH]; [reflexivity | ]. cbn [map combine]. rewrite IH. reflexivity. Qed.
Lemma pick_length : forall A B (s : list bool) (l : list A) (l' : list B), length l = length l' -> length (pick s l) = length (pick s l').
Proof.
  unfold pick. induction s as [ | b s IH]; intros [ | x l] [ | y l'] H; try discriminate; try reflexivity.
  cbn [combine filter snd]. destruct b; cbn [map length]; [f_equal | ]; apply IH; cbn [length] in H; congruence.
Qed.

(* ---- the weights ---- *)
Lemma weight_value : forall P0 q, 0 <= P0 -> 0 <= q ->
  exists v, ediv (Fin 1) (eadd (Fin 1) (emul (Fin P0) (Fin q))) = Fin v /\ v * (1 + P0 * q) = 1 /\ 0 < v /\ v <= 1.
Proof.
  intros P0 q HP Hq. assert (H : 0 <= P0 * q) by (replace 0 with (0 * q) by ring; apply Qcmult_le_compat_r; assumption).
  assert (G : 1 <= 1 + P0 * q) by (replace 1 with (1 + 0) at 1 by ring; apply Qcplus_le_compat; [apply Qcle_refl | exact H]).
  assert (Hp : 0 < 1 + P0 * q) by (apply Qclt_le_trans with 1; [reflexivity | exact G]).
  assert (N : 1 + P0 * q <> 0) by (intros E; rewrite E in Hp; exact (Qclt_not_eq _ _ Hp eq_refl)).
  exists (1 / (1 + P0 * q)). cbn [emul eadd]. split; [apply ediv_fin; exact N | ].
  assert (E : 1 / (1 + P0 * q) * (1 + P0 * q) = 1) by (field; exact N).
  split; [exact E | ].
  assert (P : 0 < 1 / (1 + P0 * q)).
  { destruct (Qclt_le_dec 0 (1 / (1 + P0 * q))) as [L | L]; [exact L | ]. exfalso.
    assert (B := Qcmult_le_compat_r _ _ (1 + P0 * q) L (Qclt_le_weak _ _ Hp)). rewrite E in B.
    replace (0 * (1 + P0 * q)) with 0 in B by ring. apply (Qclt_not_le 0 1); [reflexivity | exact B]. }
  split; [exact P | ].
  assert (B := Qcmult_le_compat_r _ _ (1 / (1 + P0 * q)) G (Qclt_le_weak _ _ P)).
  rewrite (Qcmult_comm (1 + P0 * q)), E in B. replace (1 * (1 / (1 + P0 * q))) with (1 / (1 + P0 * q)) in B by ring. exact B.
Qed.
Lemma num_set_same : forall c n l, num_col (set_num c n l) n = Ok l.
Proof. intros c n l. unfold num_col, set_num. cbn [c_num]. rewrite dget_set_same. reflexivity. Qed.
Lemma num_set_other : forall c n l k, k <> n -> num_col (set_num c n l) k = num_col c k.
Proof. intros c n l k H. unfold num_col, set_num. cbn [c_num c_size]. rewrite dget_set_other by congruence. reflexivity. Qed.

(* ---- one field ---- *)
Section Run.
Variable bbox : fkpcat -> str -> str -> res (list Qc * list Qc).
Variable kernels : list str.
Variable paint : list Qc -> list nat -> str -> bool -> list (list Qc) -> list ext -> list ext.

Lemma total_reads : forall m1 m2 c objs, reads m1 m2 c objs -> total m1 c = Ok (Fin (over o_comp objs)).
Proof.
  intros m1 m2 c objs (_ & Hs & Hw & _). unfold total. rewrite Hs. cbn [rbind]. rewrite Hw. cbn [rbind].
  rewrite pick_map, esum_fin. reflexivity.
Qed.
Definition painted (shot n w w2 npc : fval) : dict :=
  [(s_ "shotnoise", shot); (s_ "N", n); (s_ "W", w); (s_ "W2", w2); (s_ "num_per_cell", npc)].
Lemma species_inv : forall m c f d, species_field paint m c = Ok (f, d) ->
  exists box center s comp fk v p,
    attr_vec (h_attrs m) (s_ "BoxSize") = Ok box /\ attr_vec (h_attrs m) (s_ "BoxCenter") = Ok center /\
    sel_col c (h_sel m) = Ok s /\ num_col c (h_comp m) = Ok comp /\ num_col c (h_fkp m) = Ok fk /\
    num_col c (s_ "Value") = Ok v /\ vec_col c (h_pos m) = Ok p /\
    let w := pick s (emap2 emul comp fk) in
    let pos := pick s (map (fun x => map (fun ab => fst ab - snd ab) (combine x center)) p) in
    f = paint box (h_n m) (attr_str (h_attrs m) (s_ "resampler")) (attr_bool (h_attrs m) (s_ "interlaced")) pos (emap2 emul w (pick s v)) /\
    d = painted (XNum (ediv (emul (Fin (prod box)) (esum (map (fun x => emul x x) w))) (emul (esum w) (esum w))))
          (XNum (Fin (nq (length pos)))) (XNum (esum w)) (XNum (esum (map (fun x => emul x x) w))) (XNum (ediv (esum w) (Fin (cells (h_n m))))).
Proof.
  intros m c f d H. unfold species_field in H.
  destruct (attr_vec _ (s_ "BoxSize")) as [box | ]; [ | discriminate]. cbn [rbind] in H.
  destruct (attr_vec _ (s_ "BoxCenter")) as [center | ]; [ | discriminate]. cbn [rbind] in H.
  destruct (sel_col c _) as [s | ]; [ | discriminate]. cbn [rbind] in H.
  destruct (num_col c (h_comp m)) as [comp | ]; [ | discriminate]. cbn [rbind] in H.
  destruct (num_col c (h_fkp m)) as [fk | ]; [ | discriminate]. cbn [rbind] in H.
  destruct (num_col c (s_ "Value")) as [v | ]; [ | discriminate]. cbn [rbind] in H.
  destruct (vec_col c _) as [p | ]; [ | discriminate]. cbn [rbind] in H.
  exists box, center, s, comp, fk, v, p. do 7 (split; [reflexivity | ]). cbv zeta in H |- *.
  assert (E := f_equal (fun r => match r with Ok x => x | Err _ => ([], []) end) H). cbn beta iota in E.
  split; [exact (eq_sym (f_equal fst E)) | exact (eq_sym (f_equal snd E))].
Qed.
Lemma painted_nodup : forall a b c d e, NoDup (map fst (painted a b c d e)).
Proof. intros. unfold painted. cbn [map fst]. repeat constructor; cbn [In]; intuition discriminate. Qed.

Definition meta_of (pd : dict) (pr : option dict) (Wd Wr alpha : fval) : dict :=
  let at1 := dupdate pd (prefixed (s_ "data.") pd) in
  let at2 := match pr with Some pr => dupdate at1 (prefixed (s_ "randoms.") pr) | None => at1 end in
  ddel (ddel (dupdate at2 [(s_ "data.W", Wd); (s_ "randoms.W", Wr); (s_ "alpha", alpha)]) (s_ "data.shotnoise")) (s_ "randoms.shotnoise").
Lemma field_inv : forall m f d, real_field paint m = Ok (f, d) ->
  exists Wd Wr fd pr fr, total m (k_data (h_src m)) = Ok Wd /\ total m (k_rand (h_src m)) = Ok Wr /\
    species_field paint m (k_data (h_src m)) = Ok fd /\
    (if (0 <? c_size (k_rand (h_src m)))%nat
     then exists f2, species_field paint m (k_rand (h_src m)) = Ok f2 /\ pr = Some (snd f2) /\
            fr = emap2 eadd (fst fd) (map (emul (emul (Fin (- (1))) (ediv Wd Wr))) (fst f2))
     else pr = None /\ fr = fst fd) /\
    f = map (fun x => ediv x (Fin (cell_volume m))) fr /\
    d = meta_of (snd fd) pr (XNum Wd) (XNum Wr) (XNum (ediv Wd Wr)).
Proof.
  intros m f d H. unfold real_field in H.
  destruct (total m (k_data _)) as [Wd | ]; [ | discriminate]. cbn [rbind] in H.
  destruct (total m (k_rand _)) as [Wr | ]; [ | discriminate]. cbn [rbind] in H. cbv zeta in H.
  destruct (species_field paint m (k_data _)) as [fd | ]; [ | discriminate]. cbn [rbind] in H.
  exists Wd, Wr, fd.
  destruct (0 <? c_size (k_rand (h_src m)))%nat.
  - destruct (species_field paint m (k_rand _)) as [f2 | ]; [ | discriminate]. cbn [rbind] in H. cbn [fst snd] in H.
    assert (E := f_equal (fun r => match r with Ok x => x | Err _ => ([], []) end) H). cbn beta iota in E.
    exists (Some (snd f2)). eexists. do 3 (split; [reflexivity | ]). split; [exists f2; repeat (split; [reflexivity | ]); reflexivity | ].
    split; [exact (eq_sym (f_equal fst E)) | exact (eq_sym (f_equal snd E))].
  - cbn [rbind fst snd] in H.
    assert (E := f_equal (fun r => match r with Ok x => x | Err _ => ([], []) end) H). cbn beta iota in E.
    exists None, (fst fd). do 3 (split; [reflexivity | ]). split; [split; reflexivity | ].
    split; [exact (eq_sym (f_equal fst E)) | exact (eq_sym (f_equal snd E))].
Qed.
Lemma meta_nodup : forall pd pr a b c, NoDup (map fst pd) -> NoDup (map fst (meta_of pd pr a b c)).
Proof.
  intros pd pr a b c H. unfold meta_of. cbv zeta. do 2 apply ddel_nodup. apply dupdate_nodup.
  destruct pr; repeat apply dupdate_nodup; exact H.
Qed.
Lemma meta_alpha : forall a b c d e pr Wd Wr al, dget (meta_of (painted a b c d e) pr Wd Wr al) (s_ "alpha") = Some al.
Proof.
  intros. unfold meta_of. cbv zeta. rewrite !dget_del_other by discriminate.
  match goal with |- dget (dupdate ?x _) _ = _ => generalize x end. intros x. cbn [dupdate fold_left fst snd]. apply dget_set_same.
Qed.
Lemma meta_W : forall a b c d e pr Wd Wr al,
  dget (meta_of (painted a b c d e) pr Wd Wr al) (s_ "data.W") = Some Wd /\
  dget (meta_of (painted a b c d e) pr Wd Wr al) (s_ "randoms.W") = Some Wr.
Proof.
  intros. unfold meta_of. cbv zeta.
  match goal with |- context [dupdate ?x [(s_ "data.W", Wd); _; _]] => generalize x end. intros x.
  split; rewrite !dget_del_other by discriminate; cbn [dupdate fold_left fst snd].
  - rewrite !dget_set_other by discriminate. apply dget_set_same.
  - rewrite dget_set_other by discriminate. apply dget_set_same.
Qed.
Lemma meta_data : forall a b c d e pr Wd Wr al, (forall x, pr = Some x -> exists a b c d e, x = painted a b c d e) ->
  dget (meta_of (painted a b c d e) pr Wd Wr al) (s_ "data.N") = Some b /\
  dget (meta_of (painted a b c d e) pr Wd Wr al) (s_ "data.W2") = Some d /\
  dget (meta_of (painted a b c d e) pr Wd Wr al) (s_ "data.num_per_cell") = Some e /\
  dget (meta_of (painted a b c d e) pr Wd Wr al) (s_ "data.norm") = None /\
  dget (meta_of (painted a b c d e) pr Wd Wr al) (s_ "randoms.norm") = None /\
  dget (meta_of (painted a b c d e) pr Wd Wr al) (s_ "data.shotnoise") = None /\
  dget (meta_of (painted a b c d e) pr Wd Wr al) (s_ "randoms.shotnoise") = None.
Proof.
  intros a b c d e pr Wd Wr al H. destruct pr as [x | ].
  - destruct (H x eq_refl) as (a' & b' & c' & d' & e' & ->). repeat split; vm_compute; reflexivity.
  - repeat split; vm_compute; reflexivity.
Qed.
Lemma meta_rand : forall a b c d e a' b' c' d' e' Wd Wr al,
  dget (meta_of (painted a b c d e) (Some (painted a' b' c' d' e')) Wd Wr al) (s_ "randoms.N") = Some b' /\
  dget (meta_of (painted a b c d e) (Some (painted a' b' c' d' e')) Wd Wr al) (s_ "randoms.W2") = Some d' /\
  dget (meta_of (painted a b c d e) (Some (painted a' b' c' d' e')) Wd Wr al) (s_ "randoms.num_per_cell") = Some e'.
Proof. intros. repeat split; vm_compute; reflexivity. Qed.
End Run.
