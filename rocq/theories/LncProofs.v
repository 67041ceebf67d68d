(* Proofs about LncModel *)
From Verif Require Import Base BaseProofs LncModel.
From Coq Require Import QArith Qcanon.
Local Open Scope nat_scope.

(* ---- what is claimed ---- *)
(* the keyword, or else the attribute *)
Definition picks {A} (kw attr : option A) (x : A) : Prop := kw = Some x \/ (kw = None /\ attr = Some x).
(* the keyword, or else the default *)
Definition or_else {A} (kw : option A) (d x : A) : Prop := kw = Some x \/ (kw = None /\ x = d).
(* ops that set redshift or sigma8 of spectrum i *)
Definition sets (i : nat) (o : op) : Prop := match o with ORedshift j _ => j = i | OSigma8 j _ => j = i | _ => False end.

(* ---- lists of ranks ---- *)
Lemma map_const {A B} (x : B) (l : list A) : map (fun _ => x) l = repeat x (length l).
Proof. induction l as [|a l IH]; [reflexivity|]. cbn [map length repeat]. rewrite IH. reflexivity. Qed.
Lemma bcast_seq {A} (f : nat -> A) size : bcast (map f (seq 0 size)) = repeat (f 0) size.
Proof. destruct size as [|n]; [reflexivity|]. cbn [seq map bcast]. rewrite map_const, map_length, seq_length. reflexivity. Qed.
Lemma combine_repeat {A B} (a : A) (b : B) n : combine (repeat a n) (repeat b n) = repeat (a, b) n.
Proof. induction n as [|n IH]; [reflexivity|]. cbn [repeat combine]. rewrite IH. reflexivity. Qed.
Lemma map_repeat' {A B} (f : A -> B) a n : map f (repeat a n) = repeat (f a) n.
Proof. induction n as [|n IH]; [reflexivity|]. cbn [repeat map]. rewrite IH. reflexivity. Qed.

Lemma seeds_ok size draw seed cosmo_seed : exists s c,
  seeds size draw seed cosmo_seed = (repeat (Some s) size, repeat (Some c) size) /\ or_else seed (draw 0) s /\ or_else cosmo_seed s c.
Proof.
  unfold seeds, or_else. destruct seed as [s|].
  - destruct cosmo_seed as [c|]; eexists; eexists; split; [reflexivity|auto|reflexivity|auto].
  - rewrite !bcast_seq. cbn [Nat.eqb]. destruct cosmo_seed as [c|]; eexists; eexists; split; [reflexivity|auto|reflexivity|auto].
Qed.
Lemma mesh_seeds_ok size draw seed : exists s, mesh_seeds size draw seed = repeat (Some s) size /\ or_else seed (draw 0) s.
Proof. unfold mesh_seeds, or_else. destruct seed as [s|]; [exists s; auto|]. rewrite bcast_seq. cbn [Nat.eqb]. eexists; split; [reflexivity|auto]. Qed.

(* ---- LogNormalCatalog ---- *)
Lemma mock_ok sample size draw P nbar bias seed cosmo_seed cosmo redshift unitary inverted m :
  LogNormalCatalog sample size draw P nbar bias seed cosmo_seed cosmo redshift unitary inverted = Ok m ->
  exists s cs, or_else seed (draw 0) s /\ or_else cosmo_seed s cs /\
    k_seeds m = repeat (Some s) size /\ k_cosmo_seeds m = repeat (Some cs) size /\
    picks cosmo (p_cosmo P) (k_cosmo m) /\ picks redshift (p_redshift P) (k_redshift m) /\
    k_sizes m = sample (k_cosmo m) (k_redshift m) (repeat (Some s) size) (repeat (Some cs) size) /\
    length (k_attrs m) = size /\
    (forall d, In d (k_attrs m) -> d KSeed = Some (VInt (Some s)) /\ d KCosmoSeed = Some (VInt (Some cs)) /\ d KRedshift = Some (VNum (k_redshift m)) /\
      d KNbar = Some (VNum nbar) /\ d KBias = Some (VNum bias) /\ d KUnitary = Some (VBool unitary) /\ d KInverted = Some (VBool inverted) /\
      d KCosmo = match p_attrs P with Some e => e KCosmo | None => Some (VCosmo (k_cosmo m)) end) /\
    forall draw', LogNormalCatalog sample size draw' P nbar bias (Some s) (Some cs) (Some (k_cosmo m)) (Some (k_redshift m)) unitary inverted = Ok m.
Proof.
  intros H. destruct (seeds_ok size draw seed cosmo_seed) as (s & cs & ES & Hs & Hcs). unfold LogNormalCatalog in *.
  destruct (match cosmo with None => p_cosmo P | Some _ => cosmo end) as [c|] eqn:EC; [|discriminate].
  destruct (match redshift with None => p_redshift P | Some _ => redshift end) as [z|] eqn:EZ; [|discriminate].
  rewrite ES in H. rewrite combine_repeat, map_repeat' in H. cbn [fst snd] in H.
  destruct (fold_right Nat.add 0 (sample c z (repeat (Some s) size) (repeat (Some cs) size)) =? 0) eqn:EN; [discriminate|].
  injection H as <-. exists s, cs. cbn [k_seeds k_cosmo_seeds k_cosmo k_redshift k_sizes k_attrs].
  split; [exact Hs|]. split; [exact Hcs|]. split; [reflexivity|]. split; [reflexivity|].
  split; [unfold picks; destruct cosmo; [left; exact EC|right; auto]|]. split; [unfold picks; destruct redshift; [left; exact EZ|right; auto]|].
  split; [reflexivity|]. split; [apply repeat_length|]. split.
  - intros d Hd. apply repeat_spec in Hd. subst d. repeat split. unfold fill, dset. cbn. destruct (p_attrs P) as [e|]; [|reflexivity]. unfold dupdate, dempty. destruct (e KCosmo); reflexivity.
  - intros draw'. cbn [seeds]. rewrite combine_repeat, map_repeat'. cbn [fst snd]. rewrite EN. reflexivity.
Qed.
Lemma mock_made sample size draw P nbar bias seed cosmo_seed cosmo redshift unitary inverted :
  (forall e, LogNormalCatalog sample size draw P nbar bias seed cosmo_seed cosmo redshift unitary inverted = Err e -> e = ValueError) /\
  (is_ok (LogNormalCatalog sample size draw P nbar bias seed cosmo_seed cosmo redshift unitary inverted) = true <->
   exists c z s cs, picks cosmo (p_cosmo P) c /\ picks redshift (p_redshift P) z /\ or_else seed (draw 0) s /\ or_else cosmo_seed s cs /\
     exists n, In n (sample c z (repeat (Some s) size) (repeat (Some cs) size)) /\ 0 < n).
Proof.
  destruct (seeds_ok size draw seed cosmo_seed) as (s & cs & ES & Hs & Hcs). unfold LogNormalCatalog. rewrite ES.
  assert (Z0 : forall l, (fold_right Nat.add 0 l =? 0) = false <-> exists n, In n l /\ 0 < n).
  { intros l. rewrite Nat.eqb_neq. induction l as [|a l IH]; cbn [fold_right].
    - split; [lia|]. intros (n & [] & _).
    - split.
      + intros N. destruct a as [|a]; [|exists (S a); split; [left; reflexivity|lia]]. destruct IH as [IH _]. destruct IH as (n & I & L); [lia|]. exists n. split; [right; exact I|exact L].
      + intros (n & [<-|I] & L); [lia|]. assert (fold_right Nat.add 0 l <> 0) by (apply IH; exists n; auto). lia. }
  assert (U : forall (kw attr : option nat) c c', match kw with None => attr | Some _ => kw end = Some c -> picks kw attr c' -> c' = c).
  { intros kw attr c c' E [->|[-> H]]; [injection E; auto|rewrite H in E; injection E; auto]. }
  assert (UQ : forall (kw attr : option Qc) c c', match kw with None => attr | Some _ => kw end = Some c -> picks kw attr c' -> c' = c).
  { intros kw attr c c' E [->|[-> H]]; [injection E; auto|rewrite H in E; injection E; auto]. }
  assert (UZ : forall (kw : option Z) d x y, or_else kw d x -> or_else kw d y -> x = y).
  { intros kw d x y [->|[-> ->]] [H|[H H']]; congruence. }
  destruct (match cosmo with None => p_cosmo P | Some _ => cosmo end) as [c|] eqn:EC.
  2: { split; [intros e E; injection E; auto|]. split; [discriminate|]. intros (c & z & s' & cs' & Hc & _). exfalso. destruct Hc as [->|[-> Hc]]; [discriminate|congruence]. }
  destruct (match redshift with None => p_redshift P | Some _ => redshift end) as [z|] eqn:EZ.
  2: { split; [intros e E; injection E; auto|]. split; [discriminate|]. intros (c' & z & s' & cs' & _ & Hc & _). exfalso. destruct Hc as [->|[-> Hc]]; [discriminate|congruence]. }
  destruct (fold_right Nat.add 0 (sample c z (repeat (Some s) size) (repeat (Some cs) size)) =? 0) eqn:EN.
  - split; [intros e E; injection E; auto|]. split; [discriminate|]. intros (c' & z' & s' & cs' & Hc & Hz & Hs' & Hcs' & n & I & L). exfalso.
    rewrite (U _ _ _ _ EC Hc) in I. rewrite (UQ _ _ _ _ EZ Hz) in I. pose proof (UZ _ _ _ _ Hs' Hs). subst s'. rewrite (UZ _ _ _ _ Hcs' Hcs) in I.
    assert ((fold_right Nat.add 0 (sample c z (repeat (Some s) size) (repeat (Some cs) size)) =? 0) = false) by (apply Z0; exists n; auto). congruence.
  - split; [discriminate|]. split; [|reflexivity]. intros _. exists c, z, s, cs. split; [unfold picks; destruct cosmo; [left; exact EC|right; auto]|]. split; [unfold picks; destruct redshift; [left; exact EZ|right; auto]|].
    split; [exact Hs|]. split; [exact Hcs|]. apply Z0. exact EN.
Qed.

(* ---- linear meshes ---- *)
Lemma set_nth_get {A} (f : A -> A) i : forall (l : list A) k j, nth_error (map (fun p => if fst p =? i then f (snd p) else snd p) (combine (seq k (length l)) l)) j =
  match nth_error l j with Some x => Some (if k + j =? i then f x else x) | None => None end.
Proof.
  induction l as [|a l IH]; intros k j; [destruct j; reflexivity|]. destruct j as [|j]; cbn [length seq combine map nth_error fst snd].
  - rewrite Nat.add_0_r. reflexivity.
  - rewrite IH. replace (S k + j) with (k + S j) by lia. reflexivity.
Qed.
Lemma set_nth_ok {A} (f : A -> A) i (l : list A) j : nth_error (set_nth l i f) j = match nth_error l j with Some x => Some (if j =? i then f x else x) | None => None end.
Proof. unfold set_nth. rewrite set_nth_get. reflexivity. Qed.

Lemma step_power size w o i p : nth_error (w_powers w) i = Some p -> exists p', nth_error (w_powers (step size w o)) i = Some p' /\ l_transfer p' = l_transfer p /\ l_cosmo p' = l_cosmo p /\ (~ sets i o -> p' = p).
Proof.
  intros H. destruct o as [t c z s|j z|j s|j seed u v rv draw]; cbn [step].
  - exists p. cbn [w_powers]. split; [rewrite nth_error_app1; [exact H|]; apply nth_error_Some; congruence|auto].
  - cbn [w_powers]. rewrite set_nth_ok, H. eexists. split; [reflexivity|]. destruct (Nat.eqb_spec i j) as [->|N]; cbn [sets l_transfer l_cosmo]; repeat split. intros C. exfalso. apply C. reflexivity.
  - cbn [w_powers]. rewrite set_nth_ok, H. eexists. split; [reflexivity|]. destruct (Nat.eqb_spec i j) as [->|N]; cbn [sets l_transfer l_cosmo]; repeat split. intros C. exfalso. apply C. reflexivity.
  - exists p. destruct (nth_error (w_powers w) j); cbn [w_powers]; auto.
Qed.
Lemma step_mesh size w o m h : nth_error (w_meshes w) m = Some h -> nth_error (w_meshes (step size w o)) m = Some h.
Proof.
  intros H. destruct o as [t c z s|j z|j s|j seed u v rv draw]; cbn [step w_meshes]; try exact H.
  destruct (nth_error (w_powers w) j); cbn [w_meshes]; [|exact H]. rewrite nth_error_app1; [exact H|]. apply nth_error_Some. congruence.
Qed.
Lemma exec_keeps size : forall l w i p m h, nth_error (w_powers w) i = Some p -> nth_error (w_meshes w) m = Some h ->
  exists p', nth_error (w_powers (exec size w l)) i = Some p' /\ l_transfer p' = l_transfer p /\ l_cosmo p' = l_cosmo p /\ (Forall (fun o => ~ sets i o) l -> p' = p) /\
    nth_error (w_meshes (exec size w l)) m = Some h.
Proof.
  induction l as [|o l IH]; intros w i p m h Hp Hm; [exists p; cbn; auto|]. cbn [exec fold_left].
  destruct (step_power size w o i p Hp) as (p1 & H1 & T1 & C1 & S1). pose proof (step_mesh size w o m h Hm) as M1.
  destruct (IH _ _ _ _ _ H1 M1) as (p2 & H2 & T2 & C2 & S2 & M2). exists p2. split; [exact H2|]. split; [congruence|]. split; [congruence|]. split; [|exact M2].
  intros F. inversion F; subst. rewrite S2 by assumption. apply S1. assumption.
Qed.

Lemma linear_mesh (F : Type) (gaussian : power -> list (option Z) -> list bool -> list bool -> F) size w i p seed u v rv draw later :
  nth_error (w_powers w) i = Some p ->
  let w' := exec size w (OMesh i seed u v rv draw :: later) in
  exists s p' attrs, or_else seed (draw 0) s /\ nth_error (w_powers w') i = Some p' /\
    to_complex_field gaussian w' (length (w_meshes w)) =
      Ok (gaussian p' (repeat (Some s) size) (repeat (match rv with Some b => b | None => u end) size) (repeat v size), attrs) /\
    length attrs = size /\
    (forall d, In d attrs -> d KSeed = Some (VInt (Some s)) /\ d KUnitary = Some (VBool (match rv with Some b => b | None => u end)) /\ d KInverted = Some (VBool v) /\
      forall k, d (KPlin k) = power_attrs p k) /\
    l_transfer p' = l_transfer p /\ l_cosmo p' = l_cosmo p /\ (Forall (fun o => ~ sets i o) later -> p' = p).
Proof.
  intros Hp w'. subst w'. cbn [exec fold_left step]. rewrite Hp. destruct (mesh_seeds_ok size draw seed) as (s & ES & Hs). rewrite ES, map_repeat'.
  set (d := dset _ _ _). set (w1 := Build_world _ _).
  assert (M : nth_error (w_meshes w1) (length (w_meshes w)) = Some {| h_plin := i; h_attrs := repeat d size |}) by (cbn [w1 w_meshes]; rewrite nth_error_app2, Nat.sub_diag; [reflexivity|lia]).
  destruct (exec_keeps size later w1 i p _ _ Hp M) as (p' & H1 & T & C & S & M'). exists s, p', (repeat d size). fold (exec size w1 later).
  split; [exact Hs|]. split; [exact H1|]. split.
  - unfold to_complex_field. rewrite M'. cbn [h_plin h_attrs]. rewrite H1, !map_repeat'. reflexivity.
  - split; [apply repeat_length|]. split; [|auto]. intros e He. apply repeat_spec in He. subst e. split; [reflexivity|]. split; [reflexivity|]. split; [reflexivity|].
    intros k. unfold d, dset. cbn. unfold dupdate, dempty, prefixed. destruct (power_attrs p k); reflexivity.
Qed.
