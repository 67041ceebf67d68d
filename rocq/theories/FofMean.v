From Verif Require Import Base BaseProofs Num RanksSpec DaModel DaSpec DaProofs DaBin DistSpec FofModel FofSpec FofProofs FofLabels FofMerge FofGroups FofCmModel FofCmSpec FofCm.
From Coq Require Import Sorted Permutation Qround Lqa.
Local Open Scope Z_scope.

Lemma omin_comm a b : omin a b = omin b a.
Proof. destruct a as [x|], b as [y|]; try reflexivity. cbn. f_equal. destruct (Qclt_le_dec y x), (Qclt_le_dec x y); try reflexivity; qc_lra. Qed.
Lemma omin_assoc a b c : omin a (omin b c) = omin (omin a b) c.
Proof. destruct a as [x|], b as [y|], c as [z|]; try reflexivity. cbn. f_equal. destruct (Qclt_le_dec z y), (Qclt_le_dec y x); repeat destruct (Qclt_le_dec _ _); try reflexivity; try qc_lra. Qed.
Lemma omin_e a : omin a None = a.
Proof. now destruct a. Qed.
Lemma mfold_min l : l <> [] -> exists m, mfold omin None (map Some l) = Some m /\ In m l /\ forall x, In x l -> (m <= x)%Qc.
Proof.
  induction l as [|x l IH]; [contradiction|]. intros _. unfold mfold. cbn [map fold_right]. fold (mfold omin None (map Some l)). destruct l as [|y l].
  - exists x. split; [reflexivity|]. split; [now left|]. intros z [->|[]]. apply Qcle_refl.
  - destruct IH as (m & E & I & L); [discriminate|]. rewrite E. cbn [omin]. eexists; split; [reflexivity|]. destruct (Qclt_le_dec m x) as [H|H].
    + split; [now right|]. intros z [->|Hz]; [apply Qclt_le_weak, H|apply L, Hz].
    + split; [now left|]. intros z [->|Hz]; [apply Qcle_refl|]. eapply Qcle_trans; [exact H|apply L, Hz].
Qed.
Lemma omax_comm a b : omax a b = omax b a.
Proof. destruct a as [x|], b as [y|]; try reflexivity. cbn. f_equal. destruct (Qclt_le_dec y x), (Qclt_le_dec x y); try reflexivity; qc_lra. Qed.
Lemma omax_assoc a b c : omax a (omax b c) = omax (omax a b) c.
Proof. destruct a as [x|], b as [y|], c as [z|]; try reflexivity. cbn. f_equal. destruct (Qclt_le_dec y z), (Qclt_le_dec x y); repeat destruct (Qclt_le_dec _ _); try reflexivity; try qc_lra. Qed.
Lemma omax_e a : omax a None = a.
Proof. now destruct a. Qed.
Lemma mfold_max l : l <> [] -> exists m, mfold omax None (map Some l) = Some m /\ In m l /\ forall x, In x l -> (x <= m)%Qc.
Proof.
  induction l as [|x l IH]; [contradiction|]. intros _. unfold mfold. cbn [map fold_right]. fold (mfold omax None (map Some l)). destruct l as [|y l].
  - exists x. split; [reflexivity|]. split; [now left|]. intros z [->|[]]. apply Qcle_refl.
  - destruct IH as (m & E & I & L); [discriminate|]. rewrite E. cbn [omax]. eexists; split; [reflexivity|]. destruct (Qclt_le_dec x m) as [H|H].
    + split; [now right|]. intros z [->|Hz]; [apply Qclt_le_weak, H|apply L, Hz].
    + split; [now left|]. intros z [->|Hz]; [apply Qcle_refl|]. eapply Qcle_trans; [apply L, Hz|exact H].
Qed.

(* ---- wrapping ---- *)
Lemma qmod_ok x L : (0 < L)%Qc -> (0 <= qmod x L /\ qmod x L < L)%Qc /\ same_mod L x (qmod x L).
Proof.
  intros HL. unfold qmod, qfloor. set (q := (x / L)%Qc). set (k := Qfloor (this q)).
  assert (zq k <= q)%Qc as A. { unfold Qcle, zq, Q2Qc. cbn [this]. rewrite Qred_correct. apply Qfloor_le. }
  assert (q < zq k + 1)%Qc as B. { rewrite <- zq_1, <- zq_add. unfold Qclt, zq, Q2Qc. cbn [this]. rewrite Qred_correct. apply Qlt_floor. }
  assert (x = q * L)%Qc as E. { unfold q. field. intros H. rewrite H in HL. now apply Qclt_not_eq in HL. }
  split; [split|].
  - assert (zq k * L <= q * L)%Qc as H by (apply Qcmult_le_compat_r; [exact A|apply Qclt_le_weak, HL]). rewrite <- E in H. rewrite (Qcmult_comm L (zq k)). set (t := (zq k * L)%Qc) in *. clearbody t. clear -H. qc_lra.
  - assert (q * L < (zq k + 1) * L)%Qc as H by (apply Qcmult_lt_compat_r; assumption). rewrite <- E in H. replace ((zq k + 1) * L)%Qc with (zq k * L + L)%Qc in H by ring. rewrite (Qcmult_comm L (zq k)). set (t := (zq k * L)%Qc) in *. clearbody t. clear -H. qc_lra.
  - exists (- k). rewrite zq_opp. ring.
Qed.
Lemma zq_mult_ge k c L : (0 < L)%Qc -> c <= k -> (zq c * L <= zq k * L)%Qc.
Proof. intros HL H. apply Qcmult_le_compat_r; [exact (proj1 (zq_le _ _) H)|apply Qclt_le_weak, HL]. Qed.
Lemma half_two L : (L * half + L * half = L)%Qc.
Proof. unfold half. replace (L * Q2Qc (1 # 2) + L * Q2Qc (1 # 2))%Qc with (L * (Q2Qc (1 # 2) + Q2Qc (1 # 2)))%Qc by ring. replace (Q2Qc (1 # 2) + Q2Qc (1 # 2))%Qc with 1%Qc by (apply Qc_is_canon; reflexivity). ring. Qed.
Lemma wrap_ok L d D k : (0 < L)%Qc -> (0 <= d /\ d <= L)%Qc -> D = (d + zq k * L)%Qc -> (- (L * half) < D /\ D < L * half)%Qc -> wrap L d = D.
Proof.
  intros HL [D0 D1] E [B0 B1]. pose proof (half_two L) as HH. unfold wrap. set (h := (L * half)%Qc) in *.
  assert (k <= -2 \/ k = -1 \/ k = 0 \/ 1 <= k) as C by lia.
  assert (zq (-1) * L = - L)%Qc as M1 by (change (-1) with (- (1)); rewrite zq_opp, zq_1; ring). assert (zq (-2) * L = - L - L)%Qc as M2 by (change (-2) with (- (1 + 1)); rewrite zq_opp, zq_add, zq_1; ring). assert (zq 1 * L = L)%Qc as M3 by (rewrite zq_1; ring). assert (zq 0 * L = 0)%Qc as M4 by (rewrite zq_0; ring).
  destruct (Qclt_le_dec d (- h)%Qc) as [H1|H1]; [qc_lra|].
  destruct C as [C|[->|[->|C]]].
  - pose proof (zq_mult_ge (-2) k L HL C) as Q. rewrite M2 in Q. exfalso. qc_lra.
  - rewrite M1 in E. destruct (Qclt_le_dec d h); qc_lra.
  - rewrite M4 in E. destruct (Qclt_le_dec d h); qc_lra.
  - pose proof (zq_mult_ge k 1 L HL C) as Q. rewrite M3 in Q. exfalso. qc_lra.
Qed.

Lemma of_label_len {V} h l (v : list V) : length v = length l -> zlen (of_label h l v) = count h l.
Proof. intros L. apply (class_length h l v L). Qed.
Lemma of_label_zipr {V W} (f : Z -> V -> W) h l v : of_label h l (zipr f l v) = map (f h) (of_label h l v).
Proof.
  unfold of_label, zipr. revert v. induction l as [|x l IH]; intros [|y v]; cbn; auto. destruct (Z.eqb_spec x h) as [->|]; cbn; [f_equal; apply IH|apply IH].
Qed.
Lemma aligned_global {V} (ls : list (list Z)) (vs : list (list V)) : map (@length Z) ls = map (@length V) vs -> length (global vs) = length (global ls).
Proof. unfold global. revert vs. induction ls as [|l ls IH]; intros [|v vs] H; cbn in *; try discriminate; [reflexivity|]. injection H as H1 H2. rewrite !app_length, (IH vs H2). lia. Qed.
Lemma global_zipr {V W} (f : Z -> V -> W) ls vs : map (@length Z) ls = map (@length V) vs -> global (zipr (zipr f) ls vs) = zipr f (global ls) (global vs).
Proof.
  unfold global. revert vs. induction ls as [|l ls IH]; intros [|v vs] H; cbn in H; try discriminate; [reflexivity|]. injection H as H1 H2. cbn [concat]. unfold zipr at 1. cbn [combine map concat fst snd]. specialize (IH vs H2). unfold zipr in IH at 1. cbn [fst snd] in IH. rewrite IH.
  unfold zipr. rewrite combine_app by assumption. now rewrite map_app.
Qed.

Section Cm.
Variable argsort : list Z -> list nat.
Hypothesis arg_ok : argsort_contract argsort.
Variable labels : list (list Z).
Hypothesis P : proper labels.
Variable pos : list (list Qc).
Hypothesis AL : map (@length Z) labels = map (@length Qc) pos.
Notation members h := (of_label h (global labels) (global pos)).

Lemma sums_ok vs : map (@length Z) labels = map (@length Qc) vs -> exists s, label_sums argsort (top labels) labels vs = Ok s /\ length s = top labels /\ forall b, (b < top labels)%nat -> nth_error s b = Some (qsum (of_label (Z.of_nat b) (global labels) (global vs))).
Proof.
  intros A. unfold label_sums. destruct (label_reduce_ok Qcplus 0%Qc Qcplus_comm Qcplus_assoc Qcplus_0_r argsort arg_ok labels vs P A) as (s & -> & L & N). cbn [rbind]. eexists; split; [reflexivity|]. split; [exact L|exact N].
Qed.
Lemma label_top h : 0 <= h -> In h (global labels) -> (Z.to_nat h < top labels)%nat.
Proof. intros H0 H. pose proof (zmax_above _ _ H). unfold top. lia. Qed.
Lemma cm_open_ok : exists out, centerofmass argsort labels pos None = Ok out /\ length out = top labels /\ forall h, In h (global labels) -> nth_error out (Z.to_nat h) = Some (Some (mean (members h))).
Proof.
  unfold centerofmass. rewrite (nhalo0_ok labels P). cbn [rbind]. destruct (counts_ok labels P) as (n & -> & LN & NN). cbn [rbind]. destruct (sums_ok pos AL) as (s & -> & LS & NS). cbn [rbind]. eexists; split; [reflexivity|]. split; [rewrite zipr_length; lia|].
  intros h Hh. assert (0 <= h) as H0 by (destruct P as (_ & _ & Q); now apply Q). pose proof (label_top h H0 Hh) as LT. rewrite zipr_nth, NS, NN by exact LT. rewrite Z2Nat.id by lia. unfold over_count. pose proof (count_pos h _ Hh). destruct (Z.eqb_spec (count h (global labels)) 0); [lia|].
  unfold mean. rewrite of_label_len; [reflexivity|]. now apply aligned_global.
Qed.

Variable L : Qc.
Hypothesis HL : (0 < L)%Qc.
Hypothesis inside : forall x, In x (global pos) -> (0 <= x /\ x <= L)%Qc.
Lemma members_in h x : In x (members h) -> In x (global pos).
Proof. intros H. unfold of_label in H. apply in_map_iff in H. destruct H as ([a b] & <- & H). apply filter_In in H. destruct H as [H _]. now apply in_combine_r in H. Qed.
Lemma members_ne h : In h (global labels) -> members h <> [].
Proof. intros H. apply class_nonempty; [now apply aligned_global|exact H]. Qed.
Lemma posmins_ok : exists pm, posmins argsort (top labels) labels pos = Ok pm /\ length pm = top labels /\ forall h, In h (global labels) -> exists m, znth pm h = Some (Some m) /\ In m (members h) /\ forall x, In x (members h) -> (m <= x)%Qc.
Proof.
  unfold posmins.
  assert (map (@length Z) labels = map (@length (option Qc)) (map (map Some) pos)) as A by (rewrite map_map, AL; apply map_ext; intros; now rewrite map_length).
  destruct (label_reduce_ok omin None omin_comm omin_assoc omin_e argsort arg_ok labels (map (map Some) pos) P A) as (s & E & LS & NS).
  assert (zipr (fun l p => equiv_class omin argsort l (map Some p) true (Some None) (Some (top labels))) labels pos = zipr (fun l v => equiv_class omin argsort l v true (Some None) (Some (top labels))) labels (map (map Some) pos)) as ->.
  { apply nth_error_ext. intros i. rewrite !zipr_nth, nth_error_map'. destruct (nth_error labels i), (nth_error pos i); reflexivity. }
  rewrite E. cbn [rbind]. eexists; split; [reflexivity|]. split; [exact LS|]. intros h Hh. assert (0 <= h) as H0 by (destruct P as (_ & _ & Q); now apply Q). pose proof (label_top h H0 Hh) as LT.
  destruct (mfold_min (members h) (members_ne h Hh)) as (m & E1 & I & LE). exists m. split; [|split; assumption]. unfold znth. destruct (Z.ltb_spec h 0); [lia|]. rewrite (NS _ LT). rewrite Z2Nat.id by lia. rewrite <- E1. f_equal. f_equal.
  unfold global at 2. rewrite <- concat_map. apply of_label_map.
Qed.
Lemma qsum_shift c l : qsum (map (fun y => (y - c)%Qc) l) = (qsum l - zq (zlen l) * c)%Qc.
Proof. induction l as [|x l IH]; [cbn [map]; rewrite qsum_nil; change (zlen (@nil Qc)) with 0; rewrite zq_0; ring|]. cbn [map]. rewrite !qsum_cons, zlen_cons, zq_add, zq_1, IH. ring. Qed.
Lemma forall2_in {A B} (R : A -> B -> Prop) l m x : Forall2 R l m -> In x l -> exists y, In y m /\ R x y.
Proof. induction 1 as [|a b l m H F IH]; [contradiction|]. intros [->|I]; [exists b; split; [now left|exact H]|]. destruct (IH I) as (y & Iy & Ry). exists y. split; [now right|exact Ry]. Qed.
Lemma wrapped_sum x y m ym : (forall a, In a x -> (m <= a /\ a <= L)%Qc) -> (0 <= m)%Qc -> Forall2 (same_mod L) x y -> same_mod L m ym -> In ym y -> (forall a b, In a y -> In b y -> (a - b < L * half)%Qc) ->
  map (fun v => wrap L (v - m)%Qc) x = map (fun v => (v - ym)%Qc) y.
Proof.
  intros HX M0 F [km Km] IY HY. assert (forall b, In b y -> (b - ym < L * half /\ ym - b < L * half)%Qc) as HB by (intros b Hb; split; apply HY; assumption). clear HY IY.
  induction F as [|a b x y [k Ek] F IH]; [reflexivity|]. cbn [map]. f_equal; [|apply IH; intros; [apply HX; now right|apply HB; now right]].
  destruct (HX a (or_introl eq_refl)) as [A1 A2]. destruct (HB b (or_introl eq_refl)) as [B1 B2]. apply wrap_ok with (k := k - km); [exact HL|split; qc_lra| |split; qc_lra]. unfold Z.sub. rewrite zq_add, zq_opp, Ek, Km. ring.
Qed.
Lemma cm_periodic_ok : exists out, centerofmass argsort labels pos (Some L) = Ok out /\ length out = top labels /\
  forall h y, In h (global labels) -> unwrapped L (members h) y -> exists c, nth_error out (Z.to_nat h) = Some (Some c) /\ (0 <= c /\ c < L)%Qc /\ same_mod L (mean y) c.
Proof.
  unfold centerofmass. rewrite (nhalo0_ok labels P). cbn [rbind]. destruct (counts_ok labels P) as (n & -> & LN & NN). cbn [rbind]. destruct posmins_ok as (pm & -> & LP & NP). cbn [rbind].
  set (pmq := fun x => match znth pm x with Some (Some m) => m | _ => 0%Qc end).
  assert (rall (zipr (dpos_rank L pm) labels pos) = Ok (zipr (zipr (fun x v => wrap L (v - pmq x)%Qc)) labels pos)) as ->.
  { rewrite <- rall_ok. f_equal. apply nth_error_ext. intros r. rewrite nth_error_map', !zipr_nth. destruct (nth_error labels r) as [l|] eqn:El; [|reflexivity]. destruct (nth_error pos r) as [p|] eqn:Ep; [|reflexivity]. cbn [option_map]. f_equal. unfold dpos_rank. rewrite <- rall_ok. f_equal.
    apply nth_error_ext. intros i. rewrite nth_error_map', !zipr_nth. destruct (nth_error l i) as [x|] eqn:Ex; [|reflexivity]. destruct (nth_error p i) as [v|]; [|reflexivity]. cbn [option_map]. f_equal. unfold pmq.
    destruct (NP x) as (m & -> & _); [|reflexivity]. apply in_concat. exists l. split; [now apply (nth_error_In _ r)|now apply (nth_error_In _ i)]. }
  cbn [rbind]. set (d := zipr (zipr _) labels pos).
  assert (map (@length Z) labels = map (@length Qc) d) as AD.
  { unfold d. apply nth_error_ext. intros r. rewrite !nth_error_map', zipr_nth. pose proof (f_equal (fun l => nth_error l r) AL) as Q. cbv beta in Q. rewrite !nth_error_map' in Q. destruct (nth_error labels r) as [l|]; [|reflexivity]. destruct (nth_error pos r) as [p|]; [|discriminate]. cbn in *. injection Q as Q. rewrite zipr_length, Q. f_equal. lia. }
  destruct (sums_ok d AD) as (s & -> & LS & NS). cbn [rbind]. eexists; split; [reflexivity|]. split; [rewrite !zipr_length; lia|].
  intros h y Hh [FY HY]. assert (0 <= h) as H0 by (destruct P as (_ & _ & Q); now apply Q). pose proof (label_top h H0 Hh) as LT. destruct (NP h Hh) as (m & ZM & IM & LM).
  rewrite !zipr_nth, NS, NN by exact LT. rewrite Z2Nat.id by lia. unfold znth in ZM. destruct (Z.ltb_spec h 0); [lia|]. rewrite ZM. unfold over_count. pose proof (count_pos h _ Hh) as CP. destruct (Z.eqb_spec (count h (global labels)) 0); [lia|].
  eexists; split; [reflexivity|].
  destruct (forall2_in _ _ _ m FY IM) as (ym & IY & SM).
  assert (of_label h (global labels) (global d) = map (fun v => wrap L (v - m)%Qc) (members h)) as ->.
  { unfold d. rewrite global_zipr by assumption. rewrite of_label_zipr. apply map_ext. intros v. unfold pmq, znth. destruct (Z.ltb_spec h 0); [lia|]. now rewrite ZM. }
  rewrite (wrapped_sum (members h) y m ym); [|intros a Ha; split; [now apply LM|now apply inside, (members_in h)]|now apply inside, (members_in h)|exact FY|exact SM|exact IY|exact HY].
  rewrite qsum_shift. assert (zlen y = count h (global labels)) as LY. { rewrite <- (of_label_len h (global labels) (global pos)) by now apply aligned_global. unfold zlen. f_equal. clear -FY. induction FY; cbn; congruence. }
  destruct (qmod_ok (m + (qsum y - zq (zlen y) * ym) / zq (count h (global labels)))%Qc L HL) as [B [k K]]. split; [exact B|]. rewrite K. rewrite LY. destruct SM as [km Km]. exists (k - km). unfold mean. rewrite LY, Km. unfold Z.sub. rewrite zq_add, zq_opp.
  assert (zq (count h (global labels)) <> 0%Qc) as NZ. { rewrite <- zq_0. intros Q. apply zq_inj in Q. lia. }
  field. exact NZ.
Qed.
End Cm.
Lemma fof_length_ok labels : proper labels -> exists n, fof_length labels = Ok n /\ length n = top labels /\ nth_error n 0 = Some 0 /\ forall b, (0 < b < top labels)%nat -> nth_error n b = Some (count (Z.of_nat b) (global labels)).
Proof.
  intros P. unfold fof_length. destruct (fof_count_ok labels P) as (n & -> & L & N). cbn [rbind]. destruct n as [|c n].
  - exfalso. destruct P as (NE & F & NN). destruct labels as [|l ls]; [contradiction|]. inversion F; subst. destruct l as [|x l]; [contradiction|]. assert (In x (global ((x :: l) :: ls))) as I by (left; reflexivity). pose proof (NN x I). pose proof (zmax_above _ _ I). unfold top in L. cbn [length] in L. lia.
  - eexists; split; [reflexivity|]. split; [exact L|]. split; [reflexivity|]. intros [|b] Lb; [lia|]. apply (N (S b)). lia.
Qed.
Lemma peak_labels_ok argsort labels density : argsort_contract argsort -> proper labels -> map (@length Z) labels = map (@length Qc) density ->
  exists out, peak_labels argsort labels density = Ok out /\ map (@length Z) out = map (@length Z) labels /\
    forall i h, nth_error (global labels) i = Some h -> (is_peak h (global labels) (global density) i -> nth_error (global out) i = Some h) /\ (~ is_peak h (global labels) (global density) i -> nth_error (global out) i = Some 0).
Proof.
  intros AC P AL. unfold peak_labels. destruct (fof_count_ok labels P) as (n & -> & LN & _). cbn [rbind]. rewrite LN.
  assert (map (@length Z) labels = map (@length (option Qc)) (map (map Some) density)) as A by (rewrite map_map, AL; apply map_ext; intros; now rewrite map_length).
  destruct (label_reduce_ok omax None omax_comm omax_assoc omax_e argsort AC labels (map (map Some) density) P A) as (s & E & LS & NS).
  assert (zipr (fun l p => equiv_class omax argsort l (map Some p) true (Some None) (Some (top labels))) labels density = zipr (fun l v => equiv_class omax argsort l v true (Some None) (Some (top labels))) labels (map (map Some) density)) as ->.
  { apply nth_error_ext. intros i. rewrite !zipr_nth, nth_error_map'. destruct (nth_error labels i), (nth_error density i); reflexivity. }
  rewrite E. cbn [rbind]. set (dm := allreduce omax s) in *.
  assert (forall h, In h (global labels) -> exists m, znth dm h = Some (Some m) /\ In m (of_label h (global labels) (global density)) /\ forall x, In x (of_label h (global labels) (global density)) -> (x <= m)%Qc) as NP.
  { intros h Hh. assert (0 <= h) as H0 by (destruct P as (_ & _ & Q); now apply Q). assert (Z.to_nat h < top labels)%nat as LT by (pose proof (zmax_above _ _ Hh); unfold top; lia).
    destruct (mfold_max (of_label h (global labels) (global density))) as (m & E1 & I & LE); [apply class_nonempty; [now apply aligned_global|exact Hh]|]. exists m. split; [|split; assumption]. unfold znth. destruct (Z.ltb_spec h 0); [lia|]. rewrite (NS _ LT). rewrite Z2Nat.id by lia. rewrite <- E1. f_equal. f_equal.
    unfold global at 2. rewrite <- concat_map. apply of_label_map. }
  set (mq := fun x => match znth dm x with Some (Some m) => m | _ => 0%Qc end).
  exists (zipr (zipr (fun x v => if Qclt_le_dec v (mq x) then 0 else x)) labels density). split; [|split].
  - rewrite <- rall_ok. f_equal. apply nth_error_ext. intros r. rewrite nth_error_map', !zipr_nth. destruct (nth_error labels r) as [l|] eqn:El; [|reflexivity]. destruct (nth_error density r) as [p|] eqn:Ep; [|reflexivity]. cbn [option_map]. f_equal. rewrite <- rall_ok. f_equal.
    apply nth_error_ext. intros i. rewrite nth_error_map', !zipr_nth. destruct (nth_error l i) as [x|] eqn:Ex; [|reflexivity]. destruct (nth_error p i) as [v|]; [|reflexivity]. cbn [option_map]. f_equal. unfold mq.
    destruct (NP x) as (m & -> & _); [|reflexivity]. apply in_concat. exists l. split; [now apply (nth_error_In _ r)|now apply (nth_error_In _ i)].
  - apply nth_error_ext. intros r. rewrite !nth_error_map', zipr_nth. pose proof (f_equal (fun l => nth_error l r) AL) as Q. cbv beta in Q. rewrite !nth_error_map' in Q. destruct (nth_error labels r) as [l|]; [|reflexivity]. destruct (nth_error density r) as [p|]; [|discriminate]. cbn in *. injection Q as Q. rewrite zipr_length, Q. f_equal. lia.
  - intros i h Eh. rewrite global_zipr by assumption. rewrite zipr_nth, Eh. pose proof (aligned_global labels density AL) as LG. destruct (nth_error (global density) i) as [v|] eqn:Ev; [|apply nth_error_None in Ev; assert (i < length (global labels))%nat by (apply nth_error_Some; congruence); lia].
    destruct (NP h (nth_error_In _ _ Eh)) as (m & ZM & IM & LM). assert (In v (of_label h (global labels) (global density))) as IV by (apply (class_in h); eauto).
    assert (mq h = m) as -> by (unfold mq; now rewrite ZM). split.
    + intros (_ & v' & Ev' & MX). assert (v' = v) by congruence. subst. specialize (MX m IM). destruct (Qclt_le_dec v m) as [H|]; [exfalso; qc_lra|reflexivity].
    + intros N. destruct (Qclt_le_dec v m) as [|H]; [reflexivity|]. exfalso. apply N. split; [exact Eh|]. exists v. split; [exact Ev|]. intros w Hw. specialize (LM w Hw). eapply Qcle_trans; eassumption.
Qed.
