(* C366, C367 *)
From Coq Require Import String.
From Verif Require Import Base BaseProofs DlgModel.
Local Open Scope string_scope.
Local Notation length := List.length.

(* the value of a property that may raise AttributeError *)
Definition orelse (r d : res val) : res val := match r with Err AttributeError => d | _ => r end.
(* ---- specification: a cosmology whose seven delegates f are all there from the start ---- *)
Section Spec.
Variable members : iface -> string -> bool.
Variable f : iface -> inst.
Definition delegate_attr (n : string) : res val :=
  match by_name n with
  | Some i => Ok (VInst (f i))
  | None => match filter (fun i => members i n) dro with i :: _ => Ok (VAttr (f i) n) | [] => Err AttributeError end
  end.
Definition plain_attr (env : list (string * val)) (n : string) : res val :=
  match lookup n env with Some v => Ok v | None => if own n then Ok (VOwn n) else delegate_attr n end.
Definition of_delegate (env : list (string * val)) (c n : string) : res val :=
  let! v := plain_attr env c in attr_of members v n.
Definition attr (env : list (string * val)) (n : string) : res val :=
  if n =? "sigma8" then orelse (of_delegate env "Spectra" "sigma8") (delegate_attr n)
  else if n =? "Omega0_cb" then
    orelse (let! a := of_delegate env "Background" "Omega0_cdm" in let! b := of_delegate env "Background" "Omega0_b" in Ok (VSum a b)) (delegate_attr n)
  else plain_attr env n.
Definition result (env : list (string * val)) (o : op) : res val * list (string * val) :=
  match o with
  | OGet n => (attr env n, env)
  | OVia c n => ((let! v := attr env c in attr_of members v n), env)
  | OSet n v => if existsb (fun i => members i n) dro then (Err ValueError, env)
                else if is_property n then (Err AttributeError, env) else (Ok v, (n, v) :: env)
  end.
Fixpoint results (env : list (string * val)) (l : list op) : list (res val) :=
  match l with [] => [] | o :: l => let '(r, env') := result env o in r :: results env' l end.
End Spec.
(* the engine and the tables of delegates are left alone *)
Definition allowed (o : op) : Prop := match o with OSet n _ => ~ In n ["engine"; "delegates"; "dro"; "dro_dict"] | _ => True end.
Definition engine (e : Z) : inst := {| cls := ClassEngine; eng := e; serial := 0 |}.

(* ---- proofs ---- *)
Definition inv (e : Z) (s : state) : Prop :=
  lookup "engine" (attrs s) = Some (VInst (engine e)) /\ forall i x, delegate i (delegates s) = Some x -> cls x = i /\ eng x = e.
Definition ext (s s' : state) : Prop := forall i x, delegate i (delegates s) = Some x -> delegate i (delegates s') = Some x.
Definition agree (f : iface -> inst) (s : state) : Prop := forall i x, delegate i (delegates s) = Some x -> f i = x.
Definition refines {A} (e : Z) (c : state -> res A * state) (p : (iface -> inst) -> list (string * val) -> res A) : Prop :=
  forall s, inv e s -> let '(r, s') := c s in inv e s' /\ ext s s' /\ attrs s' = attrs s /\ forall f, agree f s' -> r = p f (attrs s).
Lemma iface_eqb_eq i j : iface_eqb i j = true <-> i = j.
Proof. split; [destruct i, j; cbn; congruence || discriminate|intros ->; destruct j; reflexivity]. Qed.
Lemma refines_bind A B e (c : state -> res A * state) p (k : A -> state -> res B * state) q :
  refines e c p -> (forall a, refines e (k a) (q a)) ->
  refines e (fun s => match c s with (Ok a, s1) => k a s1 | (Err x, s1) => (Err x, s1) end) (fun f env => let! a := p f env in q a f env).
Proof.
  intros C K s I. specialize (C s I). destruct (c s) as [r s1]. destruct C as (I1 & X1 & A1 & P1). destruct r as [a|x].
  - specialize (K a s1 I1). destruct (k a s1) as [r2 s2]. destruct K as (I2 & X2 & A2 & P2). split; [exact I2|]. split; [intros i y H; apply X2, X1, H|]. split; [congruence|].
    intros f G. assert (G1 : agree f s1) by (intros i y H; apply G, X2, H). rewrite <- (P1 f G1). cbn. rewrite (P2 f G), A1. reflexivity.
  - split; [exact I1|]. split; [exact X1|]. split; [exact A1|]. intros f G. rewrite <- (P1 f G). reflexivity.
Qed.
Lemma refines_pure A e (g : list (string * val) -> res A) : refines e (fun s => (g (attrs s), s)) (fun _ => g).
Proof. intros s I. split; [exact I|]. split; [intros i x H; exact H|]. split; [reflexivity|]. intros; reflexivity. Qed.
Lemma refines_eq A e (c c' : state -> res A * state) p p' : (forall s, c s = c' s) -> (forall f env, p f env = p' f env) -> refines e c p -> refines e c' p'.
Proof. intros C P R s I. specialize (R s I). rewrite <- C. destruct (c s) as [r s']. destruct R as (H1 & H2 & H3 & H4). split; [exact H1|]. split; [exact H2|]. split; [exact H3|]. intros f G. rewrite <- P. apply H4, G. Qed.
Lemma refines_delegate e i : refines e (fun s => get_delegate s i) (fun f _ => Ok (f i)).
Proof.
  intros s I. unfold get_delegate. destruct (delegate i (delegates s)) as [x|] eqn:D.
  - split; [exact I|]. split; [intros j y H; exact H|]. split; [reflexivity|]. intros f G. rewrite (G _ _ D). reflexivity.
  - destruct I as (E & I). rewrite E. cbn [cls engine]. assert (T : iface_eqb ClassEngine ClassEngine = true) by reflexivity. rewrite T. cbn [eng engine]. set (d := {| cls := i; eng := e; serial := next s |}).
    assert (N : forall j, delegate j ((i, d) :: delegates s) = if iface_eqb i j then Some d else delegate j (delegates s)) by (intros j; unfold delegate; cbn [find fst]; destruct (iface_eqb i j); reflexivity).
    split; [|split; [|split]].
    + split; [exact E|]. cbn [delegates]. intros j x H. rewrite N in H. destruct (iface_eqb i j) eqn:IJ; [|apply I, H]. apply iface_eqb_eq in IJ. injection H as <-. split; [exact IJ|reflexivity].
    + intros j x H. cbn [delegates]. rewrite N. destruct (iface_eqb i j) eqn:IJ; [apply iface_eqb_eq in IJ; congruence|exact H].
    + reflexivity.
    + intros f G. f_equal. symmetry. apply G. cbn [delegates]. rewrite N. rewrite (proj2 (iface_eqb_eq i i) eq_refl). reflexivity.
Qed.
Lemma find_filter {A} (p : A -> bool) l : find p l = match filter p l with x :: _ => Some x | [] => None end.
Proof. induction l as [|a l IH]; [reflexivity|]. cbn [find filter]. destruct (p a); [reflexivity|exact IH]. Qed.
Section R.
Variable members : iface -> string -> bool.
Variable e : Z.
Lemma refines_getattr n : refines e (fun s => dunder_getattr members s n) (fun f _ => delegate_attr members f n).
Proof.
  unfold dunder_getattr, delegate_attr. destruct (by_name n) as [i|].
  - eapply refines_eq; [| |apply (refines_bind _ _ _ _ _ (fun d s => (Ok (VInst d), s)) (fun d _ _ => Ok (VInst d)) (refines_delegate e i)); intros d; apply (refines_pure _ e (fun _ => Ok (VInst d)))].
    + intros s. cbn. destruct (get_delegate s i) as [[d|x] s']; reflexivity.
    + reflexivity.
  - rewrite find_filter. destruct (filter (fun i => members i n) dro) as [|i r]; [apply (refines_pure _ e (fun _ => Err AttributeError))|].
    eapply refines_eq; [| |apply (refines_bind _ _ _ _ _ (fun d s => (Ok (VAttr d n), s)) (fun d _ _ => Ok (VAttr d n)) (refines_delegate e i)); intros d; apply (refines_pure _ e (fun _ => Ok (VAttr d n)))].
    + intros s. cbn. destruct (get_delegate s i) as [[d|x] s']; reflexivity.
    + reflexivity.
Qed.
Lemma refines_plain n : refines e (fun s => plain members s n) (fun f env => plain_attr members f env n).
Proof.
  intros s I. unfold plain, plain_attr. destruct (lookup n (attrs s)) as [v|] eqn:L.
  - split; [exact I|]. split; [intros i x H; exact H|]. split; [reflexivity|]. intros; reflexivity.
  - destruct (own n); [split; [exact I|]; split; [intros i x H; exact H|]; split; [reflexivity|]; intros; reflexivity|]. apply (refines_getattr n s I).
Qed.
Lemma refines_attr_of c p n : refines e c p -> refines e (fun s => let '(r, s') := c s in ((let! v := r in attr_of members v n), s')) (fun f env => let! v := p f env in attr_of members v n).
Proof.
  intros R. eapply refines_eq; [| |apply (refines_bind _ _ _ _ _ (fun v s => (attr_of members v n, s)) (fun v _ _ => attr_of members v n) R); intros v; apply (refines_pure _ e (fun _ => attr_of members v n))].
  - intros s. cbn. destruct (c s) as [[v|x] s']; reflexivity.
  - reflexivity.
Qed.
Lemma refines_via c n : refines e (fun s => via members s c n) (fun f env => of_delegate members f env c n).
Proof. apply refines_attr_of, refines_plain. Qed.
Lemma refines_fallback c p n : refines e c p -> refines e (fun s => fallback members n (c s)) (fun f env => orelse (p f env) (delegate_attr members f n)).
Proof.
  intros R s I. specialize (R s I). destruct (c s) as [r s1]. destruct R as (I1 & X1 & A1 & P1). unfold fallback.
  assert (Z : inv e s1 /\ ext s s1 /\ attrs s1 = attrs s) by (split; [exact I1|split; assumption]).
  destruct r as [v|x]; [destruct Z as (Z1 & Z2 & Z3); split; [exact Z1|]; split; [exact Z2|]; split; [exact Z3|]; intros f G; rewrite <- (P1 f G); reflexivity|].
  destruct x; try (destruct Z as (Z1 & Z2 & Z3); split; [exact Z1|]; split; [exact Z2|]; split; [exact Z3|]; intros f G; rewrite <- (P1 f G); reflexivity).
  pose proof (refines_getattr n s1 I1) as D. destruct (dunder_getattr members s1 n) as [r2 s2]. destruct D as (I2 & X2 & A2 & P2).
  split; [exact I2|]. split; [intros i y H; apply X2, X1, H|]. split; [congruence|]. intros f G. rewrite <- (P1 f (fun i y H => G i y (X2 i y H))). apply P2, G.
Qed.
Lemma refines_get n : refines e (fun s => get members s n) (fun f env => attr members f env n).
Proof.
  unfold get, attr. destruct (n =? "sigma8"); [exact (refines_fallback _ _ n (refines_via "Spectra" "sigma8"))|]. destruct (n =? "Omega0_cb"); [|apply refines_plain].
  refine (refines_fallback (fun s => match via members s "Background" "Omega0_cdm" with (Ok a, s1) => let '(r, s2) := via members s1 "Background" "Omega0_b" in ((let! b := r in Ok (VSum a b)), s2) | (Err x, s1) => (Err x, s1) end)
    (fun f env => let! a := of_delegate members f env "Background" "Omega0_cdm" in let! b := of_delegate members f env "Background" "Omega0_b" in Ok (VSum a b)) n _).
  apply (refines_eq _ e (fun s => match via members s "Background" "Omega0_cdm" with (Ok a, s1) => (fun s1 => let '(r, s2) := via members s1 "Background" "Omega0_b" in ((let! b := r in Ok (VSum a b)), s2)) s1 | (Err x, s1) => (Err x, s1) end) _
    (fun f env => let! a := of_delegate members f env "Background" "Omega0_cdm" in (fun f env => let! b := of_delegate members f env "Background" "Omega0_b" in Ok (VSum a b)) f env)); [reflexivity|reflexivity|].
  apply refines_bind; [apply refines_via|]. intros a.
  eapply refines_eq; [| |apply (refines_bind _ _ _ _ _ (fun b s => (Ok (VSum a b), s)) (fun b _ _ => Ok (VSum a b)) (refines_via "Background" "Omega0_b")); intros b; apply (refines_pure _ e (fun _ => Ok (VSum a b)))].
  - intros s. cbn. destruct (via members s "Background" "Omega0_b") as [[v|x] s']; reflexivity.
  - reflexivity.
Qed.
Lemma step_ok s o : inv e s -> allowed o -> let '(r, s') := step members s o in
  inv e s' /\ ext s s' /\ forall f, agree f s' -> (r, attrs s') = result members f (attrs s) o.
Proof.
  intros I A. destruct o as [n|c n|n v]; cbn [step result].
  - pose proof (refines_get n s I) as R. destruct (get members s n) as [r s']. destruct R as (R1 & R2 & R3 & R4). split; [exact R1|]. split; [exact R2|]. intros f G. rewrite (R4 f G), R3. reflexivity.
  - pose proof (refines_attr_of _ _ n (refines_get c) s I) as R. cbn beta in R. destruct (get members s c) as [r s']. destruct R as (R1 & R2 & R3 & R4). split; [exact R1|]. split; [exact R2|]. intros f G. rewrite (R4 f G), R3. reflexivity.
  - unfold set. destruct (existsb (fun i => members i n) dro); [split; [exact I|]; split; [intros i x H; exact H|]; intros; reflexivity|].
    destruct (is_property n); [split; [exact I|]; split; [intros i x H; exact H|]; intros; reflexivity|].
    split; [|split; [intros i x H; exact H|intros; reflexivity]]. destruct I as (E & I). split; [|exact I]. cbn [attrs]. unfold lookup. cbn [find fst]. cbn [allowed In] in A. destruct (String.eqb_spec n "engine") as [->|N]; [exfalso; apply A; left; reflexivity|exact E].
Qed.
Lemma run_ok l : forall s, inv e s -> Forall allowed l -> exists f, (forall i, cls (f i) = i /\ eng (f i) = e) /\ agree f s /\ run members s l = results members f (attrs s) l.
Proof.
  induction l as [|o l IH]; intros s I A.
  - exists (fun i => match delegate i (delegates s) with Some x => x | None => {| cls := i; eng := e; serial := 0 |} end). split; [|split].
    + intros i. destruct (delegate i (delegates s)) as [x|] eqn:D; [apply (proj2 I), D|split; reflexivity].
    + intros i x H. rewrite H. reflexivity.
    + reflexivity.
  - inversion_clear A as [|? ? A1 A2]. pose proof (step_ok s o I A1) as S. cbn [run results]. destruct (step members s o) as [r s']. destruct S as (I' & X & P). destruct (IH s' I' A2) as (f & F & G & R). exists f. split; [exact F|]. split; [intros i x H; apply G, X, H|]. rewrite <- (P f G). rewrite R. reflexivity.
Qed.
Lemma make_ok s : make members e = Ok s -> inv e s /\ attrs s = [("pars", VOther 1); ("delegates", VOther 0); ("engine", VInst (engine e))] /\
  (forall i, existsb (fun n => members i n) ["engine"; "delegates"; "pars"] = false).
Proof.
  unfold make, set. destruct (existsb (fun i => members i "engine") dro) eqn:E1; [discriminate|]. cbn [is_property String.eqb orb].
  destruct (existsb (fun i => members i "delegates") dro) eqn:E2; [discriminate|]. destruct (existsb (fun i => members i "pars") dro) eqn:E3; [discriminate|].
  intros H. injection H as <-. split; [split; [reflexivity|]|split; [reflexivity|]].
  - intros i x H. cbn [delegates] in H. unfold delegate in H. cbn [find fst] in H. destruct (iface_eqb ClassEngine i) eqn:Q; [|discriminate]. apply iface_eqb_eq in Q. injection H as <-. split; [exact Q|reflexivity].
  - intros i. assert (D : In i dro) by (destruct i; cbn; tauto). assert (Q : forall n, existsb (fun i => members i n) dro = false -> members i n = false) by (intros n H; destruct (members i n) eqn:M; [|reflexivity]; rewrite <- H; symmetry; apply existsb_exists; exists i; split; assumption).
    cbn [existsb]. rewrite (Q _ E1), (Q _ E2), (Q _ E3). reflexivity.
Qed.
End R.

(* ---- C366: attributes of a cosmology are those of its delegates ---- *)
Theorem C366_delegates : forall members e s l, make members e = Ok s -> Forall allowed l ->
  exists f, (forall i, cls (f i) = i /\ eng (f i) = e) /\ f ClassEngine = engine e /\
    run members s l = results members f [("pars", VOther 1); ("delegates", VOther 0); ("engine", VInst (engine e))] l.
Proof.
  intros members e s l M A. destruct (make_ok members e s M) as (I & E & _). destruct (run_ok members e l s I A) as (f & F & G & R). exists f. split; [exact F|]. split; [|rewrite R, E; reflexivity].
  apply G. unfold make, set in M. destruct (existsb _ dro); [discriminate|]. cbn [is_property String.eqb orb] in M. destruct (existsb _ dro); [discriminate|]. destruct (existsb _ dro); [discriminate|]. injection M as <-. reflexivity.
Qed.
Print Assumptions C366_delegates.
(* a name of the classes cannot be set, and gives in all the program the attribute of one object of the first class that has it *)
Lemma results_members members f n i r : filter (fun i => members i n) dro = i :: r -> own n = false -> is_property n = false -> by_name n = None ->
  forall l env, lookup n env = None -> forall k, (nth_error l k = Some (OGet n) -> nth_error (results members f env l) k = Some (Ok (VAttr (f i) n))) /\
    (forall v, nth_error l k = Some (OSet n v) -> nth_error (results members f env l) k = Some (Err ValueError)).
Proof.
  intros F O P B. assert (X : existsb (fun i => members i n) dro = true).
  { apply existsb_exists. assert (In i (filter (fun i => members i n) dro)) by (rewrite F; left; reflexivity). apply filter_In in H. exists i. exact H. }
  induction l as [|o l IH]; intros env L k; [split; [|intros v]; destruct k; discriminate|].
  assert (ENV : lookup n (snd (result members f env o)) = None).
  { destruct o as [m|c m|m v]; cbn [result snd]; try exact L. destruct (existsb (fun i => members i m) dro) eqn:XM; [exact L|]. destruct (is_property m); [exact L|]. cbn [snd]. unfold lookup. cbn [find fst]. destruct (String.eqb_spec m n) as [->|]; [congruence|exact L]. }
  cbn [results]. destruct (result members f env o) as [q env'] eqn:Q. cbn [snd] in ENV. destruct k as [|k]; [|cbn [nth_error]; apply IH, ENV]. cbn [nth_error]. split.
  - intros H. injection H as ->. cbn [result] in Q. injection Q as <- _. unfold attr. unfold is_property in P. apply orb_false_iff in P as (P1 & P2). rewrite P1, P2. unfold plain_attr. rewrite L, O. unfold delegate_attr. rewrite B, F. reflexivity.
  - intros v H. injection H as ->. cbn [result] in Q. rewrite X in Q. injection Q as <- _. reflexivity.
Qed.
Theorem C366_members : forall members e s l n i r, make members e = Ok s -> Forall allowed l ->
  filter (fun i => members i n) dro = i :: r -> own n = false -> is_property n = false -> by_name n = None ->
  exists x, cls x = i /\ eng x = e /\ forall k,
    (nth_error l k = Some (OGet n) -> nth_error (run members s l) k = Some (Ok (VAttr x n))) /\
    (forall v, nth_error l k = Some (OSet n v) -> nth_error (run members s l) k = Some (Err ValueError)).
Proof.
  intros members e s l n i r M A F O P B. destruct (C366_delegates members e s l M A) as (f & FF & _ & R). exists (f i). split; [apply FF|]. split; [apply FF|]. rewrite R.
  apply (results_members members f n i r F O P B). destruct (make_ok members e s M) as (_ & _ & D).
  assert (MI : members i n = true) by (assert (H : In i (filter (fun i => members i n) dro)) by (rewrite F; left; reflexivity); apply filter_In in H; apply H).
  specialize (D i). cbn [existsb] in D. unfold lookup. cbn [find fst].
  destruct (String.eqb_spec "pars" n) as [<-|]; [rewrite MI in D; cbn in D; rewrite !orb_true_r in D; discriminate|].
  destruct (String.eqb_spec "delegates" n) as [<-|]; [rewrite MI in D; cbn in D; rewrite !orb_true_r in D; discriminate|].
  destruct (String.eqb_spec "engine" n) as [<-|]; [rewrite MI in D; discriminate|]. reflexivity.
Qed.
Print Assumptions C366_members.
(* some names of the classes *)
Definition some_members (i : iface) (n : string) : bool :=
  match i with
  | AstropyCompat => n =? "Om0" | Spectra => n =? "sigma8"
  | Background => existsb (String.eqb n) ["Omega0_cdm"; "Omega0_b"; "Om0"] | _ => false end.
Example C366_ex : exists s, make some_members 7 = Ok s /\
  run some_members s [OGet "Om0"; OSet "Om0" (VOther 3); OVia "Background" "Om0"; OGet "Om0"; OGet "sigma8"; OSet "name" (VOther 5); OGet "name"; OGet "Omega0_cb"; OGet "h"] =
    let a := {| cls := AstropyCompat; eng := 7; serial := 1 |} in let b := {| cls := Background; eng := 7; serial := 2 |} in
    [Ok (VAttr a "Om0"); Err ValueError; Ok (VAttr b "Om0"); Ok (VAttr a "Om0"); Ok (VAttr {| cls := Spectra; eng := 7; serial := 3 |} "sigma8"); Ok (VOther 5); Ok (VOther 5); Ok (VSum (VAttr b "Omega0_cdm") (VAttr b "Omega0_b")); Err AttributeError].
Proof. eexists. split; reflexivity. Qed.

(* ---- C367: setting attributes does not change a cosmology ---- *)
(* a program that sets something first, and then looks at sigma8 *)
Theorem C367_immutable_refuted : exists members e s n v r r',
  make members e = Ok s /\ run members s [OGet "sigma8"] = [Ok r] /\ run members s [OSet n v; OGet "sigma8"] = [Ok v; Ok r'] /\ r <> r'.
Proof.
  exists some_members, 7%Z. eexists. exists "Spectra", (VInst {| cls := Spectra; eng := 8; serial := 0 |}). do 2 eexists. repeat (split; [reflexivity|]). discriminate.
Qed.
Print Assumptions C367_immutable_refuted.
(* the engine too: all delegates made later are those of another cosmology *)
Theorem C367_engine : forall members e e' s n i r, make members e = Ok s -> filter (fun i => members i n) dro = i :: r -> i <> ClassEngine ->
  own n = false -> is_property n = false -> by_name n = None ->
  exists x, run members s [OSet "engine" (VInst (engine e')); OGet n] = [Ok (VInst (engine e')); Ok (VAttr x n)] /\ cls x = i /\ eng x = e'.
Proof.
  intros members e e' s n i r M F NE O P B. destruct (make_ok members e s M) as (_ & EA & D).
  assert (MI : members i n = true) by (assert (H : In i (filter (fun i => members i n) dro)) by (rewrite F; left; reflexivity); apply filter_In in H; apply H).
  assert (DS : delegates s = [(ClassEngine, engine e)]). { unfold make, set in M. destruct (existsb _ dro); [discriminate|]. cbn [is_property String.eqb orb] in M. destruct (existsb _ dro); [discriminate|]. destruct (existsb _ dro); [discriminate|]. injection M as <-. reflexivity. }
  assert (XE : existsb (fun i => members i "engine") dro = false).
  { destruct (existsb (fun i => members i "engine") dro) eqn:X; [|reflexivity]. apply existsb_exists in X as (j & _ & X). specialize (D j). cbn [existsb] in D. rewrite X in D. discriminate. }
  unfold is_property in P. apply orb_false_iff in P as (P1 & P2).
  assert (LN : lookup n (("engine", VInst (engine e')) :: attrs s) = None).
  { rewrite EA. specialize (D i). cbn [existsb] in D. unfold lookup. cbn [find fst].
    destruct (String.eqb_spec "engine" n) as [<-|]; [rewrite MI in D; discriminate|].
    destruct (String.eqb_spec "pars" n) as [<-|]; [rewrite MI in D; cbn in D; rewrite !orb_true_r in D; discriminate|].
    destruct (String.eqb_spec "delegates" n) as [<-|]; [rewrite MI in D; cbn in D; rewrite !orb_true_r in D; discriminate|]. reflexivity. }
  cbn [run step]. unfold set. rewrite XE. change (is_property "engine") with false. cbn iota. set (s1 := {| attrs := _; delegates := _; next := _ |}). cbn [rbind]. unfold get. rewrite P1, P2. unfold plain. assert (L1 : lookup n (attrs s1) = None) by exact LN. rewrite L1, O. unfold dunder_getattr. rewrite B, find_filter, F. unfold get_delegate. assert (D1 : delegates s1 = [(ClassEngine, engine e)]) by exact DS. rewrite D1. unfold delegate. cbn [find fst].
  destruct (iface_eqb ClassEngine i) eqn:Q; [apply iface_eqb_eq in Q; congruence|]. eexists. split; [reflexivity|]. split; reflexivity.
Qed.
Print Assumptions C367_engine.
