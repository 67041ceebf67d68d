From Verif Require Import Base BaseProofs Num RanksSpec DaSpec FiberModel FiberProofs FiberMore CgmModel CgmSpec CgmProofs CgmLocal CgmGlobal CgmFinal CgmGeom.
From Coq Require Import Sorted Permutation.
Local Open Scope nat_scope.

Lemma groups_ext : forall n (near near' : nat -> nat -> Prop) above out, (forall a b, a < n -> b < n -> near a b <-> near' a b) -> cylinder_groups n near above out -> cylinder_groups n near' above out.
Proof.
  intros n near near' above out H [G1 G2 G3 G4 G5 G6 G7].
  assert (LT : forall a t, type_of out a t -> a < n). { intros a t [h [k E]]. rewrite <- G1. apply nth_error_Some. congruence. }
  split; [exact G1|exact G2| |exact G4| |exact G6|exact G7].
  - intros a La. rewrite (G3 a La). split; intros K b Lb Hb Hn; apply (K b Lb Hb); apply (H a b La Lb); exact Hn.
  - intros a h Ht Hh. pose proof (LT a 1%Z Ht) as La. destruct (G5 a h Ht Hh) as [b [B1 [B2 [B3 [B4 B5]]]]]. exists b. split; [exact B1|]. split; [exact B2|]. split; [apply (H a b La (LT b 0%Z B1)); exact B3|]. split; [exact B4|].
    intros b' Hb' Nb'. apply B5; [exact Hb'|]. apply (H a b' La (LT b' 0%Z Hb')). exact Nb'.
Qed.
Definition origin : point := (0, 0, 0)%Qc.
Lemma nsum_concat : forall (A : Type) (ll : list (list A)), nsum (map (@length A) ll) = length (concat ll).
Proof. intros A. induction ll as [|l ll IH]; [reflexivity|]. cbn [map concat]. rewrite app_length, <- IH. reflexivity. Qed.
Theorem run_groups : forall los boxsize rperp rpar by_desc prims ghosts batches nan_int order mpsort sorted input,
  Forall (in_box boxsize) input -> (los = None -> ~ In origin input) -> (forall l, In l sorted -> l <> []) ->
  Permutation order (seq 0 (length input)) -> concat sorted = map (fun o => nth o input origin) order ->
  by_desc_contract by_desc -> mpsort_out_contract mpsort ->
  exchange_ok (length input) (fun s t => within boxsize (rperp * rperp + rpar * rpar) (nth s (concat sorted) origin) (nth t (concat sorted) origin)) prims ghosts batches ->
  exists outs, run los boxsize rperp rpar by_desc prims ghosts batches nan_int order mpsort sorted = Ok outs /\
    map (@length (Z * Z * Z)) outs = map (@length point) sorted /\
    cylinder_groups (length input) (fun a b => in_cylinder los boxsize rperp rpar (nth a input origin) (nth b input origin)) (ranked_above order) (concat outs).
Proof.
  intros los boxsize rperp rpar by_desc prims ghosts batches nan_int order mpsort sorted input Hbox Hor Hne Hord Hs Hbd Hmp HX.
  set (P := concat sorted) in *. set (N := length input) in *. set (near := fun s t => valid los boxsize (rperp * rperp) (rpar * rpar) (nth s P origin) (nth t P origin)).
  assert (Lo : length order = N) by (rewrite (Permutation_length Hord), seq_length; reflexivity). assert (LP : length P = N) by (rewrite Hs, map_length; exact Lo).
  assert (PI : forall s, s < N -> In (nth s P origin) input).
  { intros s H. assert (G : In (nth s P origin) P) by (apply nth_In; lia). rewrite Hs in G at 2. apply in_map_iff in G. destruct G as [o [<- Ho]]. apply nth_In. apply (Permutation_in _ Hord), in_seq in Ho. lia. }
  rewrite Forall_forall in Hbox. assert (NI : forall s t, s < N -> t < N -> near s t = true <-> in_cylinder los boxsize rperp rpar (nth s P origin) (nth t P origin)). { intros s t H1 H2. apply valid_iff; apply Hbox, PI; assumption. }
  destruct (cgm_groups N near by_desc prims ghosts batches _ HX) with (nan_int := nan_int) (order := order) (mpsort := mpsort) (sizes := map (@length point) sorted) as [outs [E [L G]]].
  - intros i j Hi Hj Hn. apply NI in Hn; [|assumption|assumption]. eapply cylinder_within. exact Hn.
  - intros i Hi. apply NI; [assumption|assumption|]. apply cylinder_self; [apply Hbox, PI, Hi|]. intros El Ep. apply (Hor El). change origin with (0, 0, 0)%Qc. rewrite <- Ep. apply PI, Hi.
  - exact Hbd.
  - exact Hmp.
  - exact Hord.
  - rewrite nsum_concat. exact LP.
  - exists outs. split.
    + unfold run. assert (Ex : extent_ok sorted = Ok tt). { unfold extent_ok. assert (Z : existsb (fun l : list point => match l with [] => true | _ => false end) sorted = false); [|rewrite Z; reflexivity].
        destruct (existsb (fun l : list point => match l with [] => true | _ => false end) sorted) eqn:Eb; [|reflexivity]. apply existsb_exists in Eb. destruct Eb as [l [Hl Hb]]. destruct l; [destruct (Hne [] Hl eq_refl)|discriminate]. }
      rewrite Ex. cbn [rbind]. exact E.
    + split; [exact L|]. eapply groups_ext; [|exact G]. intros a b La Lb. cbv beta. unfold near_orig. split.
      * intros [s [t [Ha [Hb Hn]]]]. assert (s < N) by (rewrite <- Lo; apply nth_error_Some; congruence). assert (t < N) by (rewrite <- Lo; apply nth_error_Some; congruence). apply NI in Hn; [|assumption|assumption].
        assert (Q : forall s a, nth_error order s = Some a -> nth s P origin = nth a input origin). { intros s' a' H'. rewrite Hs. apply nth_error_nth. rewrite nth_error_map', H'. reflexivity. } rewrite (Q s a Ha), (Q t b Hb) in Hn. exact Hn.
      * intros Hn. destruct (perm_index order N Hord a La) as [s Ha]. destruct (perm_index order N Hord b Lb) as [t Hb]. exists s, t. split; [exact Ha|]. split; [exact Hb|].
        assert (s < N) by (rewrite <- Lo; apply nth_error_Some; congruence). assert (t < N) by (rewrite <- Lo; apply nth_error_Some; congruence). apply NI; [assumption|assumption|].
        assert (Q : forall s a, nth_error order s = Some a -> nth s P origin = nth a input origin). { intros s' a' H'. rewrite Hs. apply nth_error_nth. rewrite nth_error_map', H'. reflexivity. } rewrite (Q s a Ha), (Q t b Hb). exact Hn.
Qed.

(* every set of positions has such exchanges: send everything to every rank *)
Definition all_pairs (closeb : nat -> nat -> bool) (n : nat) (p : list nat) : list (nat * nat) :=
  filter (fun ab => closeb (nth (fst ab) p 0) (nth (snd ab) (seq 0 n) 0)) (list_prod (seq 0 (length p)) (seq 0 n)).
Lemma nodup_prod : forall (A B : Type) (l : list A) (m : list B), NoDup l -> NoDup m -> NoDup (list_prod l m).
Proof.
  intros A B l m Hl Hm. induction Hl as [|x l Hx Hl IH]; cbn [list_prod]; [constructor|]. apply nodup_app_i; [apply nodup_inj_map; [exact Hm|intros; congruence]|exact IH|].
  intros [a b] H1 H2. apply in_map_iff in H1. destruct H1 as [y [E _]]. injection E as <- <-. apply in_prod_iff in H2. destruct H2 as [H2 _]. contradiction.
Qed.
Lemma exchange_exists : forall n (close : nat -> nat -> Prop) closeb prims, (forall i j, i < n -> j < n -> closeb i j = true <-> close i j) -> Permutation (concat prims) (seq 0 n) ->
  exchange_ok n close prims (map (fun _ => seq 0 n) prims) (map (fun p => [all_pairs closeb n p]) prims).
Proof.
  intros n close closeb prims Hc Hp. split.
  - rewrite !map_length. auto.
  - exact Hp.
  - intros g Hg. apply in_map_iff in Hg. destruct Hg as [p [<- _]]. split; [apply seq_NoDup|]. intros j Hj. apply in_seq in Hj. lia.
  - intros r p g i j Hr Hg Hi Hj Hcl. rewrite nth_error_map', Hr in Hg. injection Hg as <-. apply in_seq. lia.
  - intros r p g bs Hr Hg Hb. rewrite nth_error_map', Hr in Hg. rewrite nth_error_map', Hr in Hb. injection Hg as <-. injection Hb as <-. split; [discriminate|]. cbn [concat]. rewrite app_nil_r. unfold all_pairs. split; [apply NoDup_filter, nodup_prod; apply seq_NoDup|].
    intros a b. rewrite filter_In, in_prod_iff, !in_seq, seq_length. cbn [fst snd].
    assert (Q : a < length p -> nth a p 0 < n). { intros Ha. assert (G : In (nth a p 0) (concat prims)) by (apply in_concat; exists p; split; [eapply nth_error_In; exact Hr|apply nth_In; exact Ha]). apply (Permutation_in _ Hp), in_seq in G. lia. }
    split.
    + intros [[H1 H2] H3]. split; [lia|]. split; [lia|]. apply Hc; [apply Q; lia|rewrite seq_nth; lia|exact H3].
    + intros [H1 [H2 H3]]. split; [lia|]. apply Hc; [apply Q; lia|rewrite seq_nth; lia|exact H3].
Qed.
Lemma within_iff : forall boxsize r2 p q, in_box boxsize p -> in_box boxsize q -> qleb (dot (difference boxsize p q) (difference boxsize p q)) r2 = true <-> within boxsize r2 p q.
Proof.
  intros boxsize r2 p q Hp Hq. rewrite qleb_iff, dot_scalar. pose proof (apart_difference boxsize p q Hp Hq) as Ha. split; [intros H; exists (difference boxsize p q); auto|].
  intros [d [A B]]. rewrite (apart_unique _ _ _ _ _ A Ha) in B. exact B.
Qed.
(* a stable descending sort *)
Fixpoint desc_insert (key : row -> nat) (w : row) (l : list row) : list row := match l with [] => [w] | v :: l' => if key v <=? key w then w :: l else v :: desc_insert key w l' end.
Definition ref_desc (key : row -> nat) (l : list row) : list row := fold_right (desc_insert key) [] l.
Lemma ref_desc_ok : by_desc_contract ref_desc.
Proof.
  assert (IP : forall key w l, Permutation (desc_insert key w l) (w :: l)). { intros key w. induction l as [|v l IH]; cbn [desc_insert]; [reflexivity|]. destruct (key v <=? key w); [reflexivity|]. rewrite IH. apply perm_swap. }
  intros key l. unfold ref_desc. induction l as [|w l [IH1 IH2]]; cbn [fold_right]; [split; constructor|]. split; [rewrite IP, IH1; reflexivity|]. set (m := fold_right (desc_insert key) [] l) in *. clear IH1.
  induction IH2 as [|v m H IH F]; cbn [desc_insert]; [constructor; constructor|]. destruct (key v <=? key w) eqn:E.
  - apply Nat.leb_le in E. constructor; [constructor; assumption|]. constructor; [exact E|]. rewrite Forall_forall in *. intros x Hx. specialize (F x Hx). lia.
  - apply Nat.leb_gt in E. constructor; [exact IH|]. rewrite Forall_forall in *. intros x Hx. apply (Permutation_in _ (IP key w m)) in Hx. destruct Hx as [<-|Hx]; [lia|apply F, Hx].
Qed.
Lemma cylinder_sym : forall los rperp rpar p q, in_cylinder los None rperp rpar p q -> in_cylinder los None rperp rpar q p.
Proof.
  intros los rperp rpar p q [d [l2 [A [B [C [D E]]]]]]. exists (- px d, - py d, - pz d)%Qc, l2. unfold apart, px, py, pz in *. cbn [fst snd] in *. destruct A as [A1 [A2 A3]].
  assert (S1 : scalar (- px d, - py d, - pz d)%Qc (- px d, - py d, - pz d)%Qc = scalar d d) by (unfold scalar, px, py, pz; cbn [fst snd]; ring). unfold px, py, pz in S1. rewrite S1. split; [rewrite A1, A2, A3; split; [ring|split; ring]|]. split; [|auto].
  destruct los as [n|]; unfold along in *.
  - rewrite B. unfold scalar, px, py, pz. cbn [fst snd]. ring.
  - unfold px, py, pz in *. cbv zeta in *. rewrite (Qcplus_comm (fst (fst q))), (Qcplus_comm (snd (fst q))), (Qcplus_comm (snd q)). destruct B as [B1 B2]. split; [exact B1|]. rewrite B2. unfold scalar, px, py, pz. cbn [fst snd]. ring.
Qed.
