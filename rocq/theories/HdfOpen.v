From Verif Require Import Base BaseProofs IoModel IoProofs HdfModel HdfSpec HdfProofs.
Local Open Scope nat_scope.

Lemma nodup_map_inj {X Y Z} (f : X -> Y) (g : X -> Z) (l : list X) : (forall x y, In x l -> In y l -> g x = g y -> f x = f y) -> NoDup (map f l) -> NoDup (map g l).
Proof.
  induction l as [|x l IH]; intros H ND; cbn [map] in *; [constructor|]. apply NoDup_cons_iff in ND as [N1 N2]. constructor.
  - intros K. apply in_map_iff in K as (y & E & Hy). apply N1. apply in_map_iff. exists y. split; [apply H; [right; exact Hy|left; reflexivity|exact E]|exact Hy].
  - apply IH; [|exact N2]. intros a b Ha Hb. apply H; right; assumption.
Qed.
Lemma nodup_filter_map {X Y} (f : X -> Y) (p : X -> bool) (l : list X) : NoDup (map f l) -> NoDup (map f (filter p l)).
Proof.
  induction l as [|x l IH]; intros ND; cbn [map filter] in *; [constructor|]. apply NoDup_cons_iff in ND as [N1 N2]. destruct (p x); [|apply IH; exact N2]. cbn [map]. constructor; [|apply IH; exact N2].
  intros K. apply N1. apply in_map_iff in K as (y & E & Hy). apply filter_In in Hy as [Hy _]. apply in_map_iff. exists y. auto.
Qed.

Lemma column_values {A} (k : nat) (w : nat) (rows : list (list A)) : k < w -> Forall (fun row => length row = w) rows -> exists xs, Forall2 (fun row x => nth_error row k = Some x) rows xs /\ length xs = length rows.
Proof.
  intros Hk. induction 1 as [|row rows H _ (xs & F & L)]; [exists []; split; [constructor|reflexivity]|]. destruct (nth_error row k) as [x|] eqn:E; [|apply nth_error_None in E; lia].
  exists (x :: xs). split; [constructor; assumption|cbn; congruence].
Qed.

Section Open.
Context {A : Type}.
Variable ff : h5 (A := A).
Hypothesis GF : good_file ff.
Variable root : path.
Hypothesis IN : exists q d, In (root ++ q, d) (dsets ff).
Hypothesis NP : forall ty rows, ~ In (root, Plain ty rows) (dsets ff).
Variable excluded : path -> bool.

Lemma visit_in r d : In (r, d) (visit ff root) <-> In (root ++ r, d) (dsets ff).
Proof.
  unfold visit. destruct (find root (dsets ff)) as [e|] eqn:E.
  - apply (find_some ff) in E. split.
    + intros [H|[]]. injection H as <- <-. rewrite app_nil_r. exact E.
    + intros H. pose proof (no_child ff GF _ _ _ _ E H) as ->. rewrite app_nil_r in H. pose proof (same_set ff GF _ _ _ E H) as ->. left. reflexivity.
  - rewrite in_flat_map. split.
    + intros ([q e] & H1 & H2). cbn [fst snd] in H2. destruct (below root q) as [r'|] eqn:B; [|destruct H2]. destruct H2 as [H2|[]]. injection H2 as <- <-. apply below_iff in B as ->. exact H1.
    + intros H. exists (root ++ r, d). split; [exact H|]. cbn [fst snd]. rewrite (proj2 (below_iff root (root ++ r) r) eq_refl). left. reflexivity.
Qed.
Lemma visit_nodup : NoDup (map fst (visit ff root)).
Proof.
  unfold visit. destruct (find root (dsets ff)); [constructor; [auto|constructor]|]. destruct GF as (ND & _). revert ND. generalize (dsets ff) as l. induction l as [|[q e] l IH]; intros ND; cbn [flat_map map fst snd] in *; [constructor|].
  apply NoDup_cons_iff in ND as [N1 N2]. destruct (below root q) as [r|] eqn:B; [|apply IH; exact N2]. cbn [app map fst]. apply below_iff in B as ->. constructor; [|apply IH; exact N2].
  intros K. apply N1. apply in_map_iff in K as ([r' d] & E & K). cbn [fst] in E. subst r'. apply in_flat_map in K as ([q' e'] & K1 & K2). cbn [fst snd] in K2. destruct (below root q') as [r''|] eqn:B; [|destruct K2].
  destruct K2 as [K2|[]]. injection K2 as -> ->. apply below_iff in B as ->. apply (in_map fst) in K1. exact K1.
Qed.
Definition all_infos := flat_map (fun rd => find_datasets (fst rd) (snd rd)) (visit ff root).
Lemma infos_in i : In i all_infos <-> exists r d, In (root ++ r, d) (dsets ff) /\ In i (find_datasets r d).
Proof.
  unfold all_infos. rewrite in_flat_map. split.
  - intros ([r d] & H1 & H2). exists r, d. split; [apply visit_in; exact H1|exact H2].
  - intros (r & d & H1 & H2). exists (r, d). split; [apply visit_in; exact H1|exact H2].
Qed.
(* names in a data set *)
Lemma info_shape r (d : dset (A := A)) i : In i (find_datasets r d) -> i_dset i = r /\ ((exists ty rows, d = Plain ty rows /\ i_name i = r) \/ (exists fs rows f, d = Struct fs rows /\ i_name i = r ++ [f])).
Proof.
  destruct d as [ty rows|fs rows]; cbn [find_datasets].
  - intros [<-|[]]. cbn. split; [reflexivity|]. left. exists ty, rows. auto.
  - intros H. apply in_map_iff in H as ([f ty] & <- & H). cbn. split; [reflexivity|]. right. exists fs, rows, f. auto.
Qed.
Lemma infos_nodup : NoDup (map i_name all_infos).
Proof.
  unfold all_infos. pose proof visit_nodup as ND. assert (VI : forall r d, In (r, d) (visit ff root) -> In (root ++ r, d) (dsets ff)) by (intros r d; apply visit_in).
  revert ND VI. generalize (visit ff root) as l. induction l as [|[r d] l IH]; intros ND VI; cbn [flat_map map fst snd] in *; [constructor|]. apply NoDup_cons_iff in ND as [N1 N2]. rewrite map_app. apply nodup_app'.
  - pose proof (VI r d (or_introl eq_refl)) as HD. destruct d as [ty rows|fs rows]; cbn [find_datasets map]; [constructor; [auto|constructor]|].
    rewrite map_map. cbn [i_name]. destruct (proj2 (proj2 GF) _ _ _ HD) as (_ & NF & _). apply (nodup_map_inj fst (fun ft : nat * nat => r ++ [fst ft]) fs); [|exact NF]. intros x y _ _ E. apply app_inv_head in E. congruence.
  - apply IH; [exact N2|]. intros r' d' H. apply VI. right. exact H.
  - intros p H1 H2. apply in_map_iff in H1 as (i & <- & H1). apply in_map_iff in H2 as (j & E & H2). apply in_flat_map in H2 as ([r' d'] & V2 & H2). cbn [fst snd] in H2.
    pose proof (VI r d (or_introl eq_refl)) as D1. pose proof (VI r' d' (or_intror V2)) as D2.
    assert (NR : r' <> r) by (intros ->; apply N1; apply (in_map fst) in V2; exact V2).
    destruct (info_shape _ _ _ H1) as (_ & [(ty & rows & _ & S1)|(fs & rows & f & _ & S1)]); destruct (info_shape _ _ _ H2) as (_ & [(ty' & rows' & _ & S2)|(fs' & rows' & f' & _ & S2)]); rewrite S1, S2 in E.
    + contradiction.
    + subst r. rewrite app_assoc in D1. pose proof (no_child ff GF _ _ _ _ D2 D1). discriminate.
    + subst r'. rewrite app_assoc in D2. pose proof (no_child ff GF _ _ _ _ D1 D2). discriminate.
    + apply app_inj_tail in E as [E _]. contradiction.
Qed.
Lemma info_column i : In i all_infos -> exists rows, column_at ff (root ++ i_name i) (i_type i) rows /\ length rows = i_size i.
Proof.
  intros H. apply infos_in in H as (r & d & H1 & H2). destruct d as [ty rows|fs rows]; cbn [find_datasets] in H2.
  - destruct H2 as [<-|[]]. cbn. exists rows. split; [apply plain_at; exact H1|reflexivity].
  - apply in_map_iff in H2 as ([f ty] & <- & H2). cbn. apply In_nth_error in H2 as [k Hk]. destruct (proj2 (proj2 GF) _ _ _ H1) as (_ & _ & RL). destruct (column_values k (length fs) rows) as (xs & F & L); [apply nth_error_Some; congruence|exact RL|].
    exists xs. split; [|exact L]. rewrite app_assoc. apply (field_at ff (root ++ r) fs rows k f ty xs H1 Hk F).
Qed.
Lemma column_info p ty rows : column_at ff (root ++ p) ty rows -> exists i, In i all_infos /\ i_name i = p /\ i_type i = ty.
Proof.
  intros H. inversion H as [p1 t1 r1 I1 EP ET EX|p1 fs1 r1 k1 f1 t1 x1 I1 K1 F1 EP ET EX]; subst.
  - exists {| i_name := p; i_size := length rows; i_type := ty; i_dset := p |}. split; [|split; reflexivity]. apply infos_in. exists p, (Plain ty rows). split; [exact I1|left; reflexivity].
  - destruct (exists_last (l := p)) as (p' & f' & EQ).
    { intros ->. rewrite app_nil_r in EP. destruct IN as (q & d & HI). rewrite <- EP, <- app_assoc in HI. pose proof (no_child ff GF _ _ _ _ I1 HI). destruct q; discriminate. }
    subst p. rewrite app_assoc in EP. apply app_inj_tail in EP as [-> ->]. exists {| i_name := p' ++ [f']; i_size := length r1; i_type := ty; i_dset := p' |}. split; [|split; reflexivity].
    apply infos_in. exists p', (Struct fs1 r1). split; [exact I1|]. cbn [find_datasets]. apply in_map_iff. exists (f', ty). split; [reflexivity|]. apply nth_error_In in K1. exact K1.
Qed.
Lemma name_not_nil i : In i all_infos -> i_name i <> [].
Proof.
  intros H. apply infos_in in H as (r & d & H1 & H2). destruct (info_shape _ _ _ H2) as (_ & [(ty & rows & -> & ->)|(fs & rows & f & _ & ->)]).
  - intros ->. rewrite app_nil_r in H1. apply (NP ty rows H1).
  - destruct r; discriminate.
Qed.
Variable n : nat.
Hypothesis sizes : forall p ty rows, column_at ff (root ++ p) ty rows -> excluded (root ++ p) = false -> length rows = n.
Hypothesis some : exists p ty rows, column_at ff (root ++ p) ty rows /\ excluded (root ++ p) = false.
Theorem open_ok header f0 : exists h, hdf_open ff root excluded header f0 = Ok h /\ h_size h = n /\ NoDup (map fst (h_dtype h)) /\
  (forall c ty, In (c, ty) (h_dtype h) -> exists p rows, column_at ff (h_root h ++ c) ty rows /\ length rows = n /\ h_root h ++ c = root ++ p /\ excluded (root ++ p) = false) /\
  (forall p ty rows, column_at ff (root ++ p) ty rows -> excluded (root ++ p) = false -> exists c, In (c, ty) (h_dtype h) /\ h_root h ++ c = root ++ p) /\
  (h_root h = root \/ exists fs rows, In (h_root h, Struct fs rows) (dsets ff) /\ forall c, In c (map fst (h_dtype h)) -> exists f, c = [f]).
Proof.
  unfold hdf_open. rewrite (proj2 (in_file_iff ff root) IN). cbn [negb]. change (flat_map _ (visit ff root)) with all_infos.
  set (I := filter (fun i => negb (excluded (root ++ i_name i))) all_infos).
  assert (II : forall i, In i I <-> In i all_infos /\ excluded (root ++ i_name i) = false) by (intros i; unfold I; rewrite filter_In, negb_true_iff; reflexivity).
  assert (IS : forall i, In i I -> i_size i = n).
  { intros i H. apply II in H as [H1 H2]. destruct (info_column i H1) as (rows & C & L). rewrite <- L. apply (sizes _ _ _ C H2). }
  assert (ND : NoDup (map i_name I)) by (apply nodup_filter_map, infos_nodup).
  destruct I as [|i0 rest] eqn:EI.
  { exfalso. destruct some as (p & ty & rows & C & E). destruct (column_info p ty rows C) as (i & H1 & H2 & _). apply (II i). split; [exact H1|rewrite H2; exact E]. }
  rewrite <- EI in *. assert (Z : forallb (fun i => i_size i =? i_size i0) rest = true).
  { apply forallb_forall. intros i Hi. apply Nat.eqb_eq. rewrite (IS i), (IS i0); [reflexivity| |]; rewrite EI; [left; reflexivity|right; exact Hi]. }
  rewrite Z. cbn [negb]. set (single := forallb (fun i => path_eqb (i_dset i) (i_dset i0)) rest && (1 <? length I)).
  assert (I0 : In i0 I) by (rewrite EI; left; reflexivity).
  (* the names *)
  assert (NM : forall i, In i I -> (if single then root ++ i_dset i0 else root) ++ (match (if single then [last (i_name i) f0] else i_name i) with [] => [f0] | p => p end) = root ++ i_name i /\
     (single = true -> exists fs rows, In (root ++ i_dset i0, Struct fs rows) (dsets ff))).
  { intros i Hi. destruct single eqn:ES.
    - unfold single in ES. apply andb_true_iff in ES as [E1 E2]. rewrite forallb_forall in E1. apply Nat.ltb_lt in E2.
      assert (DS : forall j, In j I -> i_dset j = i_dset i0) by (intros j Hj; rewrite EI in Hj; destruct Hj as [<-|Hj]; [reflexivity|apply path_eqb_eq, E1; exact Hj]).
      assert (ST : exists fs rows, In (root ++ i_dset i0, Struct fs rows) (dsets ff)).
      { destruct rest as [|i1 rest']; [rewrite EI in E2; cbn in E2; lia|]. assert (I1 : In i1 I) by (rewrite EI; right; left; reflexivity).
        assert (A0 := proj1 (proj1 (II i0) I0)). assert (A1 := proj1 (proj1 (II i1) I1)). apply infos_in in A0 as (r & d & A0 & B0). apply infos_in in A1 as (r' & d' & A1 & B1).
        destruct (info_shape _ _ _ B0) as (D0 & S0). destruct (info_shape _ _ _ B1) as (D1 & S1'). assert (RR : r' = r) by (rewrite <- D0, <- D1; apply DS; exact I1). rewrite RR in *. clear RR.
        destruct S0 as [(ty & rows & -> & N0)|(fs & rows & f & -> & N0)]; [|exists fs, rows; rewrite D0; exact A0].
        exfalso. pose proof (same_set ff GF _ _ _ A0 A1) as <-. destruct S1' as [(ty' & rows' & _ & N1)|(fs & rows' & f & E & _)]; [|discriminate].
        rewrite EI in ND. cbn [map] in ND. apply NoDup_cons_iff in ND as [K _]. apply K. left. congruence. }
      split; [|auto]. assert (Ai := proj1 (proj1 (II i) Hi)). apply infos_in in Ai as (r & d & Ai & Bi). destruct (info_shape _ _ _ Bi) as (Di & Si). rewrite (DS i Hi) in Di. subst r.
      destruct ST as (fs & rows & ST). destruct Si as [(ty & rows' & -> & N0)|(fs' & rows' & f & _ & N0)].
      + pose proof (same_set ff GF _ _ _ ST Ai). discriminate.
      + rewrite N0, last_last. rewrite <- app_assoc. reflexivity.
    - split; [|discriminate]. assert (N := name_not_nil i (proj1 (proj1 (II i) Hi))). destruct (i_name i); [congruence|reflexivity]. }
  eexists. split; [reflexivity|]. cbn [h_size h_dtype h_root]. split; [apply IS; exact I0|]. split; [|split; [|split]].
  - rewrite map_map. cbn [fst]. apply (nodup_map_inj i_name _ I); [|exact ND]. intros x y Hx Hy E. pose proof (proj1 (NM x Hx)) as Nx. pose proof (proj1 (NM y Hy)) as Ny. apply (app_inv_head root). rewrite <- Nx, <- Ny, E. reflexivity.
  - intros c ty H. apply in_map_iff in H as (i & E & Hi). pose proof (proj1 (NM i Hi)) as Q. pose proof (f_equal fst E) as Ec. pose proof (f_equal snd E) as Et. cbn [fst snd] in Ec, Et. clear E. rewrite Ec in Q. subst ty. apply II in Hi as [H1 H2]. destruct (info_column i H1) as (rows & C & L). exists (i_name i), rows.
    split; [exact (eq_ind_r (fun p => column_at ff p _ rows) C Q)|]. split; [apply (sizes _ _ _ C H2)|]. split; [exact Q|exact H2].
  - intros p ty rows C E. destruct (column_info p ty rows C) as (i & H1 & H2 & H3). assert (Hi : In i I) by (apply II; split; [exact H1|rewrite H2; exact E]).
    eexists. split; [|rewrite <- H2; exact (proj1 (NM i Hi))]. apply in_map_iff. exists i. split; [|exact Hi]. rewrite H3. reflexivity.
  - destruct single eqn:ES; [right|left; reflexivity]. destruct (proj2 (NM i0 I0) eq_refl) as (fs & rows & H). exists fs, rows. split; [exact H|]. intros c Hc. rewrite map_map in Hc. cbn [fst] in Hc. apply in_map_iff in Hc as (i & <- & _). eexists. reflexivity.
Qed.
End Open.
Theorem hdf_ok {A} (dflt : A) (ff : h5 (A := A)) root excluded header f0 n : good_file ff -> (exists q d, In (root ++ q, d) (dsets ff)) -> (forall ty rows, ~ In (root, Plain ty rows) (dsets ff)) ->
  (forall p ty rows, column_at ff (root ++ p) ty rows -> excluded (root ++ p) = false -> length rows = n) ->
  (exists p ty rows, column_at ff (root ++ p) ty rows /\ excluded (root ++ p) = false) ->
  exists h, hdf_open ff root excluded header f0 = Ok h /\ h_size h = n /\ NoDup (map fst (h_dtype h)) /\
    (forall c ty, In (c, ty) (h_dtype h) -> exists p rows, column_at ff (h_root h ++ c) ty rows /\ length rows = n /\ h_root h ++ c = root ++ p /\ excluded (root ++ p) = false) /\
    (forall p ty rows, column_at ff (root ++ p) ty rows -> excluded (root ++ p) = false -> exists c, In (c, ty) (h_dtype h) /\ h_root h ++ c = root ++ p) /\
    (h_root h = root \/ exists fs rows, In (h_root h, Struct fs rows) (dsets ff) /\ forall c, In c (map fst (h_dtype h)) -> exists f, c = [f]) /\
    forall cols start stop step, NoDup cols -> (forall c, In c cols -> In c (map fst (h_dtype h))) -> (0 <= start <= stop)%Z -> (stop <= Z.of_nat n)%Z -> (1 <= step)%Z ->
      exists outs, hdf_read dflt ff h cols start stop step = Ok outs /\ Forall2 (fun c out => forall ty rows, column_at ff (h_root h ++ c) ty rows -> rows_of rows start stop step out) cols outs.
Proof.
  intros GF IN NP SZ SM. destruct (open_ok ff GF root IN NP excluded n SZ SM header f0) as (h & H1 & H2 & H3 & H4 & H5 & H6). exists h. do 6 (split; [assumption|]).
  intros cols start stop step ND HC R1 R2 R3. apply (read_ok dflt ff GF (h_root h) n start stop step (conj R1 (conj R2 R3)) h cols eq_refl HC ND).
  apply Forall_forall. intros c Hc. apply HC in Hc. apply in_map_iff in Hc as ([c' ty] & E & Hc). cbn [fst] in E. subst c'. destruct (H4 c ty Hc) as (p & rows & C & L & _). exists ty, rows. auto.
Qed.
Theorem open_refused {A} (ff : h5 (A := A)) (GF : good_file ff) root excluded header f0 :
  ((forall q d, ~ In (root ++ q, d) (dsets ff)) -> hdf_open ff root excluded header f0 = Err ValueError) /\
  ((exists q d, In (root ++ q, d) (dsets ff)) -> (exists p ty rows p' ty' rows', column_at ff (root ++ p) ty rows /\ excluded (root ++ p) = false /\ column_at ff (root ++ p') ty' rows' /\ excluded (root ++ p') = false /\ length rows <> length rows') ->
     hdf_open ff root excluded header f0 = Err ValueError).
Proof.
  split.
  - intros H. unfold hdf_open. destruct (in_file ff root) eqn:E; [|reflexivity]. apply (in_file_iff ff) in E as (q & d & E). exfalso. exact (H q d E).
  - intros IN (p & ty & rows & p' & ty' & rows' & C & X & C' & X' & L). unfold hdf_open. destruct (negb _); [reflexivity|]. change (flat_map _ (visit ff root)) with (all_infos ff root).
    set (I := filter (fun i => negb (excluded (root ++ i_name i))) (all_infos ff root)).
    destruct (column_info ff GF root IN p ty rows C) as (i & Hi & N & _). destruct (column_info ff GF root IN p' ty' rows' C') as (j & Hj & N' & _).
    assert (Ii : In i I) by (apply filter_In; split; [exact Hi|rewrite N, X; reflexivity]). assert (Ij : In j I) by (apply filter_In; split; [exact Hj|rewrite N', X'; reflexivity]).
    assert (SZ : forall k q t r, In k (all_infos ff root) -> i_name k = q -> column_at ff (root ++ q) t r -> i_size k = length r).
    { intros k q t r Hk <- Cq. destruct (info_column ff GF root k Hk) as (r' & Cr & Lr). rewrite <- Lr. f_equal. destruct (column_unique ff GF _ _ _ _ _ Cr Cq) as [_ Q]. exact Q. }
    pose proof (SZ i p ty rows Hi N C) as Si. pose proof (SZ j p' ty' rows' Hj N' C') as Sj. destruct I as [|i0 rest]; [destruct Ii|].
    assert (F : forallb (fun i => i_size i =? i_size i0) rest = false).
    { destruct (forallb _ rest) eqn:E; [|reflexivity]. rewrite forallb_forall in E. exfalso. assert (AL : forall k, In k (i0 :: rest) -> i_size k = i_size i0) by (intros k [<-|Hk]; [reflexivity|apply Nat.eqb_eq, E; exact Hk]). rewrite (AL i Ii) in Si. rewrite (AL j Ij) in Sj. congruence. }
    rewrite F. reflexivity.
Qed.
