From Coq Require Import Ascii String QArith Qcanon Lia.
From Verif Require Import Base BaseProofs Num NamesModel NamesProofs TomProofs SurveyModel FkpModel FkpSpec FkpProofs FkpMain.
Local Notation length := List.length.
Local Open Scope Qc_scope.

Lemma qsum_fin : forall l, esum (map Fin l) = Fin (qsum l).
Proof. intros l. rewrite (esum_fin _ (fun x => x)), map_id. reflexivity. Qed.

Section Run.
Variable bbox : fkpcat -> str -> str -> res (list Qc * list Qc).
Variable kernels : list str.
Variable paint : list Qc -> list nat -> str -> bool -> list (list Qc) -> list ext -> list ext.

Definition counted : list str :=
  [s_ "data.N"; s_ "randoms.N"; s_ "data.W"; s_ "randoms.W"; s_ "data.num_per_cell"; s_ "randoms.num_per_cell"].
Definition reserved : list str :=
  s_ "alpha" :: s_ "data.norm" :: s_ "randoms.norm" :: s_ "data.shotnoise" :: s_ "randoms.shotnoise" :: counted.

Lemma compute_inv : forall m f, compute paint m = Ok f -> exists g, real_field paint m = Ok g /\ snd f = dupdate (snd g) (h_attrs m).
Proof.
  intros m f H. unfold compute in H. destruct (real_field paint m) as [g | ]; [ | discriminate]. cbn [rbind] in H.
  exists g. split; [reflexivity | ]. assert (E : f = (fst g, dupdate (snd g) (h_attrs m))) by congruence. rewrite E. reflexivity.
Qed.

Lemma run_attrs : forall poles m1 m2 same p d r, run kernels paint poles m1 m2 same = Ok p ->
  (same = true -> m2 = m1) -> h_src m2 = h_src m1 ->
  reads m1 m2 (k_data (h_src m1)) d -> reads m1 m2 (k_rand (h_src m1)) r -> over o_comp r <> 0 -> unused m1 reserved ->
  let pre := if same then [] else s_ "first." in
  let alpha := over o_comp d / over o_comp r in
  let nd := over (fun o => o_nbar o * o_comp o * o_fkp1 o * o_fkp2 o * 1) d in
  let nr := over (fun o => o_nbar o * o_comp o * o_fkp1 o * o_fkp2 o * alpha) r in
  says (p_attrs p) (pre ++ s_ "data.N") (nq (length (filter o_sel d))) /\
  says (p_attrs p) (pre ++ s_ "randoms.N") (nq (length (filter o_sel r))) /\
  says (p_attrs p) (pre ++ s_ "data.W") (over o_comp d) /\
  says (p_attrs p) (pre ++ s_ "randoms.W") (over o_comp r) /\
  says (p_attrs p) (s_ "alpha") alpha /\
  says (p_attrs p) (s_ "data.norm") nd /\
  says (p_attrs p) (s_ "randoms.norm") nr /\
  (nr <> 0 -> says (p_attrs p) (s_ "shotnoise")
     ((over (fun o => o_comp o * o_comp o * o_fkp1 o * o_fkp2 o) d + over (fun o => o_comp o * o_comp o * o_fkp1 o * o_fkp2 o) r * (alpha * alpha)) / nr)) /\
  (0 < nr -> exists v, p_norm p = Fin v /\ v * nr = 1) /\
  dget (p_attrs p) (s_ "data.shotnoise") = None /\ dget (p_attrs p) (s_ "randoms.shotnoise") = None.
Proof.
  intros poles m1 m2 same p d r H Hsame Hsrc Rd Rr HW U.
  destruct (run_inv kernels paint _ _ _ _ _ H) as (_ & _ & _ & a & b & box & center & pad & f1 & al & f2 & al2 & nd & nr & sd & sr &
    Sb & P1 & P2 & Eb & Ec & C1 & A1 & C2 & A2 & _ & N1 & N2 & _ & S1 & S2 & Pn & _ & Pa). cbv zeta in Pa.
  destruct (same_box_similar _ _ _ _ Sb) as [Sa Sbb].
  apply uncomp_similar in Sa. apply uncomp_similar in Sbb. rewrite <- P1 in Sa. rewrite <- P2 in Sbb.
  assert (Rd' := reads_similar _ _ _ _ _ _ Sa Sbb Rd). assert (Rr' := reads_similar _ _ _ _ _ _ Sa Sbb Rr).
  assert (Hs1 : h_src (p_first p) = h_src m1) by apply Sa.
  assert (Hs2 : h_src (p_second p) = h_src m1) by (rewrite <- Hsrc; apply Sbb).
  rewrite <- Hs1 in Rd', Rr'.
  destruct (compute_inv _ _ C1) as (g & G & M). destruct g as [gf meta]. cbn [snd] in M.
  destruct (field_reads paint _ _ _ _ _ _ Rd' Rr' HW G) as (ND & Q1 & Q2 & Q3 & Q4 & Q5 & Q6 & Q7 & Q8 & Q9 & Q10 & Q11).
  assert (Un : forall k, In k reserved -> dget (h_attrs (p_first p)) k = None).
  { intros k Hk. destruct Sa as (_ & _ & _ & _ & _ & _ & _ & _ & Fr). rewrite Fr; [apply U; exact Hk | ].
    intros B. unfold reserved, counted in Hk. cbn [In] in Hk, B.
    repeat match goal with D : _ \/ _ |- _ => destruct D as [D | D] end; try contradiction; subst k; discriminate. }
  assert (F1 : forall k, In k reserved -> dget (snd f1) k = dget meta k) by (intros k Hk; rewrite M; apply dupdate_other, Un; exact Hk).
  assert (ND1 : NoDup (map fst (snd f1))) by (rewrite M; apply dupdate_nodup; exact ND).
  assert (Al : al = Fin (over o_comp d / over o_comp r)).
  { unfold num_attr in A1. rewrite F1 in A1 by (left; reflexivity). unfold says in Q5. rewrite Q5 in A1. congruence. }
  subst al.
  rewrite (norm_reads _ _ (k_data (h_src (p_first p))) d true) in N1 by (first [reflexivity | exact Rd' | unfold species_cat; congruence]).
  rewrite (norm_reads _ _ (k_rand (h_src (p_first p))) r false) in N2 by (first [reflexivity | exact Rr' | unfold species_cat; congruence]).
  rewrite (shot_reads _ _ (k_data (h_src (p_first p))) d true) in S1 by (first [reflexivity | exact Rd' | unfold species_cat; congruence]).
  rewrite (shot_reads _ _ (k_rand (h_src (p_first p))) r false) in S2 by (first [reflexivity | exact Rr' | unfold species_cat; congruence]).
  cbv beta iota in N1, N2.
  match type of N1 with Ok (Fin ?x) = _ => assert (E : nd = Fin x) by congruence; subst nd end.
  match type of N2 with Ok (Fin ?x) = _ => assert (E : nr = Fin x) by congruence; subst nr end.
  match type of S1 with Ok (Fin ?x) = _ => assert (E : sd = Fin x) by congruence; subst sd end.
  match type of S2 with Ok (Fin ?x) = _ => assert (E : sr = Fin x) by congruence; subst sr end.
  clear N1 N2 S1 S2.
  set (at2 := four _ _ _ _ _) in Pa. cbv zeta.
  assert (K : forall k v, In k counted -> dget meta k = Some v -> dget (p_attrs p) ((if same then [] else s_ "first.") ++ k) = Some v).
  { intros k v Hk Hv. rewrite <- F1 in Hv by (do 5 right; exact Hk).
    assert (Kk : kept k = true) by (unfold counted in Hk; cbn [In] in Hk; repeat (destruct Hk as [<- | Hk]; [reflexivity | ]); contradiction).
    rewrite Pa. destruct same.
    - apply copy_same; assumption.
    - rewrite copy_other; [apply copy_same; assumption | ]. intros x _ _ D. discriminate D. }
  assert (J : forall k, kept k = false -> (forall x, s_ "first." ++ x <> k) -> (forall x, s_ "second." ++ x <> k) -> dget (p_attrs p) k = dget at2 k).
  { intros k Kk X1 X2. rewrite Pa. destruct same.
    - apply copy_other. intros x _ Kx D. change ([] ++ x) with x in D. congruence.
    - rewrite copy_other by (intros x _ _; apply X2). apply copy_other. intros x _ _. apply X1. }
  assert (J2 : forall k, dget (snd f1) k = None -> (forall x, s_ "first." ++ x <> k) -> (forall x, s_ "second." ++ x <> k) -> dget (p_attrs p) k = dget at2 k).
  { intros k Dk X1 X2. rewrite Pa. destruct same.
    - apply copy_other. intros x Hx _ D. change ([] ++ x) with x in D. subst x. apply (proj1 (dget_none _ _ _)) in Dk. exact (Dk Hx).
    - rewrite copy_other by (intros x _ _; apply X2). apply copy_other. intros x _ _. apply X1. }
  unfold says in *.
  split; [apply K; [unfold counted; cbn [In]; auto | exact Q1] | ].
  split; [apply K; [unfold counted; cbn [In]; auto | exact Q2] | ].
  split; [apply K; [unfold counted; cbn [In]; auto | exact Q3] | ].
  split; [apply K; [unfold counted; cbn [In]; auto | exact Q4] | ].
  split. { rewrite J by (first [reflexivity | discriminate]). unfold at2, four. rewrite !dget_set_other by discriminate. apply dget_set_same. }
  split. { rewrite J2; [ | rewrite F1 by (unfold reserved; cbn [In]; auto 12); exact Q8 | discriminate | discriminate].
           unfold at2, four. rewrite !dget_set_other by discriminate. apply dget_set_same. }
  split. { rewrite J2; [ | rewrite F1 by (unfold reserved; cbn [In]; auto 12); exact Q9 | discriminate | discriminate].
           unfold at2, four. rewrite !dget_set_other by discriminate. apply dget_set_same. }
  split. { intros Hn. rewrite J by (first [reflexivity | discriminate]). unfold at2, four. rewrite dget_set_same.
           cbn [emul eadd]. rewrite ediv_fin by exact Hn. reflexivity. }
  split. { intros Hn. rewrite Pn. cbn [epos]. unfold qltb. match goal with |- context [Qclt_le_dec 0 ?x] => destruct (Qclt_le_dec 0 x) as [L | L] end.
           - eexists. rewrite ediv_fin by (intros E; rewrite E in L; exact (Qclt_not_eq _ _ L eq_refl)). split; [reflexivity | ].
             field. intros E. rewrite E in L. exact (Qclt_not_eq _ _ L eq_refl).
           - exfalso. exact (Qclt_not_le _ _ Hn L). }
  split; (rewrite J2; [ | rewrite F1 by (unfold reserved; cbn [In]; auto 12); assumption | discriminate | discriminate];
    unfold at2, four; rewrite !dget_set_other by discriminate; reflexivity).
Qed.

(* without randoms *)
Lemma run_norandoms : forall poles m p d, run kernels paint poles m m true = Ok p ->
  reads m m (k_data (h_src m)) d -> reads m m (k_rand (h_src m)) [] -> dget (h_attrs m) (s_ "alpha") = None ->
  dget (p_attrs p) (s_ "shotnoise") = Some (XNum NaN) /\ p_norm p = Fin 1.
Proof.
  intros poles m p d H Rd Rr U.
  destruct (run_inv kernels paint _ _ _ _ _ H) as (_ & _ & _ & a & b & box & center & pad & f1 & al & f2 & al2 & nd & nr & sd & sr &
    Sb & P1 & P2 & Eb & Ec & C1 & A1 & C2 & A2 & _ & N1 & N2 & _ & S1 & S2 & Pn & _ & Pa). cbv zeta in Pa.
  destruct (same_box_self _ _ _ Sb) as [-> ->].
  assert (Sa := uncomp_similar _ _ (similar_refl m)).
  assert (Rd' := reads_similar _ _ _ _ _ _ Sa Sa Rd). assert (Rr' := reads_similar _ _ _ _ _ _ Sa Sa Rr).
  assert (Hs : h_src (uncompensate m) = h_src m) by reflexivity. rewrite P2, <- P1 in *. rewrite P1 in *. rewrite <- Hs in Rd', Rr'.
  destruct (compute_inv _ _ C1) as (g & G & M). destruct g as [gf meta]. cbn [snd] in M.
  destruct (field_inv paint _ _ _ G) as (Wd & Wr & fd & pr & fr & T1 & T2 & F1 & _ & _ & Em).
  rewrite (total_reads _ _ _ _ Rd') in T1. rewrite (total_reads _ _ _ _ Rr') in T2.
  assert (Wd = Fin (over o_comp d)) by congruence. assert (E0 : Wr = Fin 0) by (change (over o_comp []) with 0 in T2; congruence).
  destruct fd as [fd pd]. destruct (species_reads paint _ _ _ _ _ _ Rd' F1) as [sh Epd]. cbn [snd] in Em. subst pd.
  assert (Ea : al = ediv Wd Wr).
  { unfold num_attr in A1. rewrite M, dupdate_other in A1.
    - rewrite Em, meta_alpha in A1. congruence.
    - unfold uncompensate. cbn [h_attrs]. rewrite dget_set_other by discriminate. exact U. }
  subst Wd Wr.
  assert (Z : esum (pick [] (@nil ext)) = Fin 0) by reflexivity.
  assert (S2' : sr = Fin 0).
  { rewrite (shot_reads (uncompensate m) (uncompensate m) (k_rand (h_src (uncompensate m))) [] false eq_refl eq_refl Rr') in S2.
    match type of S2 with Ok (Fin ?x) = _ => change x with 0 in S2 end. congruence. }
  assert (N2' : nr = Fin 0).
  { revert N2. unfold norm_of. destruct Rr' as (_ & Rs & Rw & R1 & R2 & Rn & _). cbn [species_cat]. rewrite Rs. cbn [rbind]. rewrite Rw. cbn [rbind].
    rewrite Rn. cbn [rbind]. rewrite R1. cbn [rbind]. intros N2. cbn in N2. congruence. }
  subst sr nr. split.
  - rewrite Pa, copy_other by (intros x _ Kx D; change ([] ++ x) with x in D; subst x; discriminate Kx).
    unfold four. rewrite dget_set_same. do 2 f_equal.
    assert (Q : emul (Fin 0) (emul al al) = NaN).
    { rewrite Ea. cbn [ediv]. destruct (Qc_eq_dec 0 0) as [_ | B]; [ | congruence].
      cbn [esign]. destruct (Qc_eq_dec (over o_comp d) 0); [reflexivity | ]. destruct (qltb 0 (over o_comp d)); reflexivity. }
    rewrite Q. destruct sd; reflexivity.
  - rewrite Pn. reflexivity.
Qed.

(* the total of the field *)
Lemma volume_split : forall box n, length box = length n -> cells n <> 0 ->
  prod (map (fun p => fst p / nq (snd p)) (combine box n)) = prod box / cells n.
Proof.
  induction box as [ | x box IH]; intros [ | k n] L H; try discriminate; [unfold cells, prod; cbn [map combine fold_right]; field; discriminate | ].
  unfold cells in *. cbn [combine map prod fold_right fst snd] in *. unfold prod in *. cbn [fold_right] in *.
  assert (Hk : nq k <> 0) by (intros E; apply H; rewrite E; ring).
  assert (Hn : fold_right Qcmult 1 (map nq n) <> 0) by (intros E; apply H; rewrite E; ring).
  rewrite IH; [ | cbn [length] in L; congruence | exact Hn]. field. split; assumption.
Qed.
Lemma combine_sum : forall (al vol : Qc) cs cs', length cs = length cs' -> vol <> 0 ->
  esum (map (fun x => ediv x (Fin vol)) (emap2 eadd (map Fin cs) (map (emul (emul (Fin (- (1))) (Fin al))) (map Fin cs')))) =
  Fin ((qsum cs - al * qsum cs') / vol).
Proof.
  intros al vol cs. induction cs as [ | x cs IH]; intros [ | y cs'] L V; try discriminate.
  - cbn. f_equal. field. exact V.
  - specialize (IH cs' ltac:(cbn [length] in L; congruence) V). unfold emap2 in *. cbn [map combine esum fold_right emul eadd fst snd] in *.
    unfold esum in IH. rewrite IH. rewrite ediv_fin by exact V. cbn [eadd]. rewrite !qsum_cons. f_equal. field. exact V.
Qed.
Lemma species_cells : forall m1 m2 c objs f d, reads m1 m2 c objs -> num_col c (s_ "Value") = Ok (map (fun _ => Fin 1) objs) ->
  conserves paint (h_n m1) -> species_field paint m1 c = Ok (f, d) ->
  exists cs, f = map Fin cs /\ length cs = fold_right Nat.mul 1%nat (h_n m1) /\ qsum cs = over (fun o => o_comp o * o_fkp1 o) objs.
Proof.
  intros m1 m2 c objs f d (_ & Hs & Hw & H1 & H2 & Hn & p & Hp & Lp) HV HC H.
  destruct (species_inv paint m1 c f d H) as (box & center & s & comp & fk & v & p' & _ & _ & Es & Ec & Ef & Ev & Ep & Hd). cbv zeta in Hd.
  destruct Hd as [-> _]. assert (s = map o_sel objs) by congruence. assert (comp = map (fun o => Fin (o_comp o)) objs) by congruence.
  assert (fk = map (fun o => Fin (o_fkp1 o)) objs) by congruence. assert (p' = p) by congruence. assert (v = map (fun _ => Fin 1) objs) by congruence.
  subst s comp fk p' v. rewrite !emap2_map. cbn [emul]. rewrite !pick_map, emap2_map. cbn [emul].
  rewrite <- (map_map (fun o => o_comp o * o_fkp1 o * 1) Fin).
  match goal with |- context [paint ?b ?n ?r ?i ?q (map Fin ?ms)] => destruct (HC b r i q ms) as (cs & E & L & Q) end.
  - rewrite (pick_length _ _ _ _ (map (fun o => o) objs)) by (rewrite !map_length; exact Lp). rewrite pick_map, !map_length. reflexivity.
  - exists cs. split; [exact E | ]. split; [exact L | ]. rewrite Q. unfold over. f_equal. apply map_ext. intros o. ring.
Qed.
Lemma field_total : forall m1 m2 d r f meta, reads m1 m2 (k_data (h_src m1)) d -> reads m1 m2 (k_rand (h_src m1)) r ->
  num_col (k_data (h_src m1)) (s_ "Value") = Ok (map (fun _ => Fin 1) d) ->
  num_col (k_rand (h_src m1)) (s_ "Value") = Ok (map (fun _ => Fin 1) r) ->
  over o_comp r <> 0 -> conserves paint (h_n m1) -> cell_volume m1 <> 0 ->
  real_field paint m1 = Ok (f, meta) ->
  exists t, esum f = Fin t /\
    t * cell_volume m1 = over (fun o => o_comp o * o_fkp1 o) d - over o_comp d / over o_comp r * over (fun o => o_comp o * o_fkp1 o) r.
Proof.
  intros m1 m2 d r f meta Rd Rr Vd Vr HW HC V0 H.
  destruct (field_inv paint m1 f meta H) as (Wd & Wr & fd & pr & fr & T1 & T2 & S1 & S2 & -> & _).
  rewrite (total_reads m1 m2 _ _ Rd) in T1. rewrite (total_reads m1 m2 _ _ Rr) in T2.
  assert (Wd = Fin (over o_comp d)) by congruence. assert (Wr = Fin (over o_comp r)) by congruence. subst Wd Wr. clear T1 T2.
  rewrite ediv_fin in S2 by exact HW.
  destruct fd as [fd pd]. destruct (species_cells _ _ _ _ _ _ Rd Vd HC S1) as (cs & -> & L & Q). cbn [fst snd] in *.
  assert (Lt : (0 <? c_size (k_rand (h_src m1)))%nat = true).
  { apply Nat.ltb_lt. destruct Rr as (-> & _). destruct r as [ | o r]; [exfalso; apply HW; reflexivity | cbn [length]; lia]. }
  rewrite Lt in S2. destruct S2 as ([f2 p2] & S2 & _ & ->). destruct (species_cells _ _ _ _ _ _ Rr Vr HC S2) as (cs' & -> & L' & Q'). cbn [fst].
  rewrite combine_sum by (first [exact V0 | congruence]). eexists. split; [reflexivity | ]. rewrite Q, Q'. field. split; [exact HW | exact V0].
Qed.
End Run.
