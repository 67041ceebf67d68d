From Verif Require Import Base BaseProofs Num RanksSpec DaSpec DaMore FiberModel FiberProofs FiberMore CgmModel CgmSpec CgmProofs CgmLocal CgmGlobal.
From Coq Require Import Sorted Permutation.
Local Open Scope nat_scope.

Lemma desc_prefix : forall l k s, StronglySorted (fun a b => b < a) l -> nth_error l k = Some s -> forall t, In t (firstn k l) <-> In t l /\ s < t.
Proof.
  induction l as [|x l IH]; intros [|k] s Hs E t; try discriminate E; inversion Hs as [|? ? H1 H2]; subst; rewrite Forall_forall in H2; cbn [firstn nth_error] in *.
  - injection E as ->. split; [intros []|]. intros [[->|H] L]; [lia|]. specialize (H2 t H). lia.
  - cbn [In]. rewrite (IH k s H1 E t). split; [|tauto]. intros [->|[A B]]; [|tauto]. split; [auto|]. apply H2. eapply nth_error_In; exact E.
Qed.
Lemma nodup_firstn : forall (A : Type) k (l : list A), NoDup l -> NoDup (firstn k l).
Proof. intros A k l H. rewrite <- (firstn_skipn k l) in H. apply nodup_app_r in H. apply H. Qed.
Lemma nodup_nth_eq : forall (A : Type) (l : list A) i j x, NoDup l -> nth_error l i = Some x -> nth_error l j = Some x -> i = j.
Proof. intros A l i j x H E1 E2. apply (proj1 (NoDup_nth_error l) H); [apply nth_error_Some; congruence|congruence]. Qed.
Lemma nodup_seq_z : forall n, NoDup (map Z.of_nat (seq 0 n)).
Proof. intros n. apply nodup_inj_map; [apply seq_NoDup|]. intros x y _ _ E. lia. Qed.
Lemma sorted_seq_z : forall n k, StronglySorted (fun a b => (a <= b)%Z) (map Z.of_nat (seq k n)).
Proof. induction n as [|n IH]; intros k; cbn [seq map]; [constructor|]. constructor; [apply IH|]. rewrite Forall_forall. intros x Hx. apply in_map_iff in Hx. destruct Hx as [i [<- Hi]]. apply in_seq in Hi. lia. Qed.
Lemma sorted_map_key : forall (A : Type) (key : A -> Z) l, StronglySorted (fun a b => (key a <= key b)%Z) l -> StronglySorted Z.le (map key l).
Proof. intros A key l H. induction H as [|x l H IH F]; cbn [map]; [constructor|]. constructor; [exact IH|]. rewrite Forall_forall in *. intros y Hy. apply in_map_iff in Hy. destruct Hy as [z [<- Hz]]. apply F, Hz. Qed.
Lemma perm_index : forall order n, Permutation order (seq 0 n) -> forall a, a < n -> exists s, nth_error order s = Some a.
Proof. intros order n H a Ha. apply In_nth_error. apply (Permutation_in _ (Permutation_sym H)). apply in_seq. lia. Qed.

Section Final.
Variables (N : nat) (near : nat -> nat -> bool) (by_desc : (row -> nat) -> list row -> list row)
  (prims ghosts : list (list nat)) (batches : list (list (list (nat * nat)))) (close : nat -> nat -> Prop).
Hypothesis HX : exchange_ok N close prims ghosts batches.
Hypothesis Hclose : forall i j, i < N -> j < N -> near i j = true -> close i j.
Hypothesis Hrefl : forall i, i < N -> near i i = true.
Hypothesis Hbd : by_desc_contract by_desc.
Variables (nan_int : Z) (order : list nat) (mpsort : list Z -> (cell -> Z) -> list (list cell) -> list (list cell)) (sizes : list nat).
Hypothesis Hmp : mpsort_out_contract mpsort.
Hypothesis Hord : Permutation order (seq 0 N).
Hypothesis Hsz : nsum sizes = N.
Notation cen := (cen N near).
Definition near_orig (a b : nat) : Prop := exists s t, nth_error order s = Some a /\ nth_error order t = Some b /\ near s t = true.

Lemma order_len : length order = N. Proof using All. rewrite (Permutation_length Hord), seq_length. reflexivity. Qed.
Lemma order_nodup : NoDup order. Proof using All. eapply Permutation_NoDup; [symmetry; exact Hord|apply seq_NoDup]. Qed.
Lemma order_lt : forall s a, nth_error order s = Some a -> s < N /\ a < N.
Proof using All. intros s a H. split; [rewrite <- order_len; apply nth_error_Some; congruence|]. apply nth_error_In, (Permutation_in _ Hord), in_seq in H. lia. Qed.
Lemma order_at : forall s, s < N -> nth_error order s = Some (nth s order 0).
Proof using All. intros s H. apply nth_nth_error with (d := 0); [rewrite order_len; exact H|reflexivity]. Qed.
Lemma order_inj : forall s t a, nth_error order s = Some a -> nth_error order t = Some a -> s = t.
Proof using All. intros s t a. apply nodup_nth_eq, order_nodup. Qed.

Lemma cgm_cells : exists parts F, cgm near by_desc prims ghosts batches nan_int order mpsort sizes = Ok (map (map (fun c => (c_type c, c_halo c, c_sats c))) F) /\
  length parts = length prims /\ (forall r part, nth_error parts r = Some part -> rank_ok N near prims ghosts batches r part) /\
  map (@length cell) F = sizes /\
  length (concat F) = N /\ forall s a, nth_error order s = Some a -> exists c, nth_error (concat F) a = Some c /\ cell_ok N near by_desc parts order s c.
Proof using All.
  destruct (parts_ok N near by_desc prims ghosts batches close HX Hclose Hrefl Hbd) as [parts [E1 [Hlen Hparts]]].
  destruct (gather_all_ok N near by_desc prims ghosts batches close HX Hclose Hrefl Hbd parts Hlen Hparts nan_int order sizes 0 ltac:(lia)) as [out [E2 [E3 E4]]]. cbn [Nat.add] in E4.
  exists parts, (mpsort (map Z.of_nat sizes) c_orig out). split; [unfold cgm; rewrite E1; cbn [rbind]; rewrite E2; reflexivity|]. split; [exact Hlen|]. split; [exact Hparts|].
  assert (Lo : length (concat out) = N). { rewrite <- Hsz, <- E3. clear. induction out as [|x out IH]; [reflexivity|]. cbn [concat map]. rewrite app_length, IH. reflexivity. }
  destruct (Hmp (map Z.of_nat sizes) c_orig out) as [M1 [M2 M3]].
  { rewrite Forall_forall. intros x Hx. apply in_map_iff in Hx. destruct Hx as [k [<- _]]. lia. }
  { unfold global, zlen. rewrite Lo, <- Hsz. clear. induction sizes as [|k l IH]; [reflexivity|]. cbn [map]. change (nsum (k :: l)) with (k + nsum l). change (zsum (Z.of_nat k :: map Z.of_nat l)) with (Z.of_nat k + zsum (map Z.of_nat l))%Z. lia. }
  unfold global in M2, M3. set (F := mpsort (map Z.of_nat sizes) c_orig out) in *.
  split. { apply (f_equal (map Z.to_nat)) in M1. rewrite !map_map in M1. unfold zlen in M1. erewrite map_ext in M1; [|intros l; apply Nat2Z.id]. rewrite M1. erewrite map_ext; [apply map_id|]. intros k. apply Nat2Z.id. }
  split; [rewrite (Permutation_length M2); exact Lo|].
  assert (K : map c_orig (concat out) = map Z.of_nat order).
  { apply nth_error_ext. intros i. rewrite !nth_error_map'. destruct (nth_error (concat out) i) as [c|] eqn:E.
    - destruct (E4 i c E) as [Ec _]. cbn [option_map]. rewrite Ec. assert (i < N) by (rewrite <- Lo; apply nth_error_Some; congruence). rewrite order_at by assumption. reflexivity.
    - apply nth_error_None in E. assert (G : nth_error order i = None) by (apply nth_error_None; rewrite order_len; lia). rewrite G. reflexivity. }
  assert (Q : map c_orig (concat F) = map Z.of_nat (seq 0 N)).
  { symmetry. apply (sorted_perm_unique (fun z : Z => z)).
    - transitivity (map Z.of_nat order); [apply Permutation_map; symmetry; exact Hord|]. rewrite <- K. apply Permutation_map. symmetry. exact M2.
    - rewrite map_id. apply nodup_seq_z.
    - apply sorted_seq_z.
    - apply sorted_map_key. exact M3. }
  intros s a Hs. destruct (order_lt s a Hs) as [L1 L2]. destruct (nth_error (concat F) a) as [c|] eqn:Ec; [|apply nth_error_None in Ec; rewrite (Permutation_length M2) in Ec; lia].
  exists c. split; [reflexivity|]. assert (Hc : In c (concat out)) by (apply (Permutation_in _ M2); eapply nth_error_In; exact Ec). apply In_nth_error in Hc. destruct Hc as [i Hi]. pose proof (E4 i c Hi) as Ki.
  assert (Ea : c_orig c = Z.of_nat a). { assert (G : nth_error (map c_orig (concat F)) a = Some (c_orig c)) by (rewrite nth_error_map', Ec; reflexivity). rewrite Q, nth_error_map', nth_error_seq in G. assert (B : (a <? N) = true) by (apply Nat.ltb_lt; exact L2). rewrite B in G. cbn in G. injection G as G. symmetry. exact G. }
  assert (Li : i < N) by (rewrite <- Lo; apply nth_error_Some; congruence). assert (i = s); [|subst; exact Ki]. apply (order_inj i s a); [|exact Hs]. rewrite order_at by exact Li. f_equal. destruct Ki as [Ki _]. lia.
Qed.

Theorem cgm_groups : exists outs, cgm near by_desc prims ghosts batches nan_int order mpsort sizes = Ok outs /\ map (@length (Z * Z * Z)) outs = sizes /\
  cylinder_groups N near_orig (ranked_above order) (concat outs).
Proof using All.
  destruct cgm_cells as [parts [F [E [Hlen [Hparts [Hsizes [LF HF]]]]]]]. eexists. split; [exact E|]. split. { rewrite map_map. rewrite <- Hsizes. apply map_ext. intros l. apply map_length. }
  destruct (all_ok N near by_desc prims ghosts batches close HX Hclose Hrefl Hbd parts Hlen Hparts) as [AS AI]. set (all := all_centrals by_desc parts) in *.
  set (trip := fun c : cell => (c_type c, c_halo c, c_sats c)). rewrite <- (concat_map trip). set (out := map trip (concat F)).
  assert (HO : forall a x, nth_error out a = Some x -> exists s c, nth_error order s = Some a /\ nth_error (concat F) a = Some c /\ cell_ok N near by_desc parts order s c /\ x = trip c).
  { intros a x Hx. unfold out in Hx. rewrite nth_error_map' in Hx. destruct (nth_error (concat F) a) as [c|] eqn:Ec; [|discriminate]. injection Hx as <-. assert (La : a < N) by (rewrite <- LF; apply nth_error_Some; congruence).
    destruct (perm_index order N Hord a La) as [s Hs]. destruct (HF s a Hs) as [c' [Hc' K]]. rewrite Ec in Hc'. injection Hc' as <-. exists s, c. auto. }
  assert (T0 : forall s a, nth_error order s = Some a -> type_of out a 0 <-> cen s = true).
  { intros s a Hs. destruct (HF s a Hs) as [c [Hc [_ [K0 [K1 _]]]]]. unfold type_of, out. rewrite nth_error_map', Hc. cbn [option_map]. unfold trip. destruct (cen s) eqn:Cs.
    - split; [reflexivity|]. intros _. destruct (K0 eq_refl) as [K _]. rewrite K. exists (c_halo c), (c_sats c). reflexivity.
    - split; [|discriminate]. intros [h [k G]]. injection G as G _ _. destruct (K1 eq_refl) as [K _]. congruence. }
  assert (T1 : forall s a, nth_error order s = Some a -> type_of out a 1 <-> cen s = false).
  { intros s a Hs. destruct (HF s a Hs) as [c [Hc [_ [K0 [K1 _]]]]]. unfold type_of, out. rewrite nth_error_map', Hc. cbn [option_map]. unfold trip. destruct (cen s) eqn:Cs.
    - split; [|discriminate]. intros [h [k G]]. injection G as G _ _. destruct (K0 eq_refl) as [K _]. congruence.
    - split; [reflexivity|]. intros _. destruct (K1 eq_refl) as [K _]. rewrite K. exists (c_halo c), (c_sats c). reflexivity. }
  assert (H0 : forall s a h, nth_error order s = Some a -> cen s = true -> halo_of out a h <-> exists k, nth_error all k = Some s /\ h = Z.of_nat k).
  { intros s a h Hs Cs. destruct (HF s a Hs) as [c [Hc [_ [K0 _]]]]. destruct (K0 Cs) as [_ [k [N1 N2]]]. unfold halo_of, out. rewrite nth_error_map', Hc. cbn [option_map]. unfold trip. split.
    - intros [t [m G]]. injection G as _ G _. exists k. split; [exact N1|congruence].
    - intros [k' [M1 ->]]. assert (k' = k) by (apply (nodup_nth_eq _ all k' k s); [apply desc_nodup; exact AS|exact M1|exact N1]). subst k'. rewrite N2. exists (c_type c), (c_sats c). reflexivity. }
  assert (H1 : forall s a h, nth_error order s = Some a -> cen s = false -> halo_of out a h <-> exists t k, host N near s t /\ nth_error all k = Some t /\ h = Z.of_nat k).
  { intros s a h Hs Cs. destruct (HF s a Hs) as [c [Hc [_ [_ [K1 _]]]]]. destruct (K1 Cs) as [_ [t [k [N0 [N1 N2]]]]]. unfold halo_of, out. rewrite nth_error_map', Hc. cbn [option_map]. unfold trip. split.
    - intros [t' [m G]]. injection G as _ G _. exists t, k. split; [exact N0|]. split; [exact N1|congruence].
    - intros [t' [k' [M0 [M1 ->]]]]. assert (t' = t). { destruct M0 as [A1 [A2 A3]]. destruct N0 as [B1 [B2 B3]]. pose proof (A3 t B1 B2). pose proof (B3 t' A1 A2). lia. } subst t'.
      assert (k' = k) by (apply (nodup_nth_eq _ all k' k t); [apply desc_nodup; exact AS|exact M1|exact N1]). subst k'. rewrite N2. exists (c_type c), (c_sats c). reflexivity. }
  assert (SA : forall s a k, nth_error order s = Some a -> sats_of out a k -> exists L, NoDup L /\ (forall u, In u L <-> u < N /\ cen u = false /\ host N near u s) /\ k = zlen L).
  { intros s a k Hs [t [h G]]. destruct (HF s a Hs) as [c [Hc [_ [_ [_ [L [L1 [L2 L3]]]]]]]]. unfold out in G. rewrite nth_error_map', Hc in G. cbn [option_map] in G. unfold trip in G. injection G as _ _ G. exists L. split; [exact L1|]. split; [exact L2|congruence]. }
  assert (AT : forall a t, type_of out a t -> exists s, nth_error order s = Some a). { intros a t [h [k G]]. destruct (HO a _ G) as [s [c [Hs _]]]. exists s. exact Hs. }
  assert (AB : forall s t a b, nth_error order s = Some a -> nth_error order t = Some b -> ranked_above order b a <-> s < t).
  { intros s t a b Hs Ht. split; [|intros L; exists s, t; auto]. intros [s' [t' [L [A B]]]]. rewrite (order_inj s s' a Hs A), (order_inj t t' b Ht B). exact L. }
  assert (NR : forall s t a b, nth_error order s = Some a -> nth_error order t = Some b -> near_orig a b <-> near s t = true).
  { intros s t a b Hs Ht. split; [|intros L; exists s, t; auto]. intros [s' [t' [A [B L]]]]. rewrite (order_inj s s' a Hs A), (order_inj t t' b Ht B). exact L. }
  assert (INJ : forall l, (forall u, In u l -> u < N) -> NoDup l -> NoDup (map (fun u => nth u order 0) l)).
  { intros l Hl Hn. apply nodup_inj_map; [exact Hn|]. intros x y Hx Hy Exy. apply (order_inj x y (nth x order 0)); [apply order_at, Hl, Hx|rewrite Exy; apply order_at, Hl, Hy]. }
  split.
  - unfold out. rewrite map_length. exact LF.
  - intros a t Ht. destruct (AT a t Ht) as [s Hs]. destruct Ht as [h [k G]]. destruct (HF s a Hs) as [c [Hc [_ [K0 [K1 _]]]]]. unfold out in G. rewrite nth_error_map', Hc in G. cbn [option_map] in G. unfold trip in G. injection G as G _ _.
    destruct (cen s); [left; destruct (K0 eq_refl); congruence|right; destruct (K1 eq_refl); congruence].
  - intros a La. destruct (perm_index order N Hord a La) as [s Hs]. rewrite (T0 s a Hs). destruct (order_lt s a Hs) as [Ls _]. rewrite (cen_iff N near s Ls). split.
    + intros H b Lb Hab Hn. destruct (perm_index order N Hord b Lb) as [t Ht]. rewrite (T0 t b Ht). rewrite (AB s t a b Hs Ht) in Hab. rewrite (NR s t a b Hs Ht) in Hn. destruct (order_lt t b Ht). rewrite (H t); [discriminate|assumption|assumption|assumption].
    + intros H t L Lt Hn. pose proof (order_at t Lt) as Ht. specialize (H (nth t order 0) (proj2 (order_lt t _ Ht))). rewrite (T0 t _ Ht), (AB s t a _ Hs Ht), (NR s t a _ Hs Ht) in H. destruct (cen t); [|reflexivity]. exfalso. apply H; auto.
  - intros a h Ht Hh. destruct (AT a _ Ht) as [s Hs]. rewrite (T0 s a Hs) in Ht. apply (H0 s a h Hs Ht) in Hh. destruct Hh as [k [N1 ->]]. exists (map (fun u => nth u order 0) (firstn k all)).
    assert (LT : forall u, In u (firstn k all) -> u < N) by (intros u Hu; apply (desc_prefix all k s AS N1) in Hu; destruct Hu as [Hu _]; apply AI in Hu; eapply cen_lt; exact Hu). split; [|split].
    + apply INJ; [exact LT|]. apply nodup_firstn, desc_nodup. exact AS.
    + intros b. rewrite in_map_iff. split.
      * intros [u [<- Hu]]. pose proof (order_at u (LT u Hu)) as Eu. apply (desc_prefix all k s AS N1) in Hu. destruct Hu as [U1 U2]. rewrite (T0 u _ Eu), (AB s u a _ Hs Eu), <- AI. auto.
      * intros [B1 B2]. destruct (AT b _ B1) as [u Hu]. rewrite (T0 u b Hu) in B1. rewrite (AB s u a b Hs Hu) in B2. exists u. split; [rewrite (order_at u (proj1 (order_lt u b Hu))) in Hu; congruence|]. apply (desc_prefix all k s AS N1). rewrite AI. auto.
    + rewrite zlen_map'. unfold zlen. rewrite firstn_length_le; [reflexivity|]. apply Nat.lt_le_incl, nth_error_Some. congruence.
  - intros a h Ht Hh. destruct (AT a _ Ht) as [s Hs]. rewrite (T1 s a Hs) in Ht. apply (H1 s a h Hs Ht) in Hh. destruct Hh as [t [k [N0 [N1 ->]]]]. destruct N0 as [A1 [A2 A3]]. pose proof (cen_lt N near t A1) as Lt. pose proof (order_at t Lt) as Et.
    destruct (order_lt s a Hs) as [Ls _]. destruct (not_cen N near s Ls Ht) as [t0 [B1 [B2 [B3 B4]]]]. pose proof (A3 t0 B4 B3). exists (nth t order 0). rewrite (T0 t _ Et), (AB s t a _ Hs Et), (NR s t a _ Hs Et), (H0 t _ (Z.of_nat k) Et A1).
    split; [exact A1|]. split; [lia|]. split; [exact A2|]. split; [exists k; auto|]. intros b' Hb' Nb'. destruct (AT b' _ Hb') as [u Hu]. rewrite (T0 u b' Hu) in Hb'. rewrite (NR s u a b' Hs Hu) in Nb'. pose proof (A3 u Hb' Nb'). rewrite (AB u t b' _ Hu Et).
    destruct (Nat.eq_dec u t) as [->|Hne]; [left; congruence|right; lia].
  - intros a h k Ht Hh Hk. destruct (AT a _ Ht) as [s Hs]. rewrite (T0 s a Hs) in Ht. apply (H0 s a h Hs Ht) in Hh. destruct Hh as [m [N1 ->]]. destruct (SA s a k Hs Hk) as [L [L1 [L2 ->]]]. exists (map (fun u => nth u order 0) L).
    assert (LT : forall u, In u L -> u < N) by (intros u Hu; apply L2, Hu). split; [apply INJ; assumption|]. split; [|rewrite zlen_map'; reflexivity]. intros b. rewrite in_map_iff. split.
    + intros [u [<- Hu]]. pose proof (order_at u (LT u Hu)) as Eu. apply L2 in Hu. destruct Hu as [U1 [U2 U3]]. rewrite (T1 u _ Eu), (H1 u _ _ Eu U2). split; [exact U2|]. exists s, m. auto.
    + intros [B1 B2]. destruct (AT b _ B1) as [u Hu]. rewrite (T1 u b Hu) in B1. apply (H1 u b _ Hu B1) in B2. destruct B2 as [t [k' [B2 [B3 B4]]]]. assert (k' = m) by lia. subst k'. rewrite N1 in B3. injection B3 as <-. destruct (order_lt u b Hu) as [Lu _].
      exists u. split; [rewrite (order_at u Lu) in Hu; congruence|]. apply L2. auto.
  - intros a k Ht Hk. destruct (AT a _ Ht) as [s Hs]. rewrite (T1 s a Hs) in Ht. destruct (SA s a k Hs Hk) as [L [L1 [L2 ->]]]. destruct L as [|u L]; [reflexivity|]. destruct (proj1 (L2 u) (or_introl eq_refl)) as [_ [_ [G _]]]. congruence.
Qed.
End Final.
