From Verif Require Import Base BaseProofs CatModel MeshModel MeshSpec.
Local Open Scope nat_scope.

Lemma replace_length {A} (l : list A) : forall i x, length (replace l i x) = length l.
Proof. induction l as [|y l IH]; intros [|i] x; cbn; auto. Qed.
Lemma replace_nth {A} (l : list A) : forall i x j, nth_error (replace l i x) j = if (j =? i) then (if i <? length l then Some x else None) else nth_error l j.
Proof.
  induction l as [|y l IH]; intros [|i] x [|j]; cbn; try reflexivity.
  - destruct (j =? i); reflexivity.
  - rewrite IH. destruct (Nat.eqb_spec j i); [|reflexivity]. change (S i <? S (length l)) with (i <? length l). reflexivity.
Qed.
Lemma nth_snoc {A} (l : list A) x i : nth_error (l ++ [x]) i = if i <? length l then nth_error l i else if i =? length l then Some x else None.
Proof.
  destruct (Nat.ltb_spec i (length l)); [apply nth_error_app1; assumption|]. rewrite nth_error_app2 by assumption.
  destruct (Nat.eqb_spec i (length l)) as [->|N]; [rewrite Nat.sub_diag; reflexivity|]. destruct (i - length l) as [|[|k]] eqn:E; try lia; reflexivity.
Qed.
Lemma aget_aset {V} (d : list (nat * V)) k v k' : aget (aset d k v) k' = if k' =? k then Some v else aget d k'.
Proof.
  induction d as [|[k0 v0] d IH]; cbn [aset aget].
  - reflexivity.
  - destruct (Nat.eqb_spec k k0) as [->|N]; cbn [aget].
    + destruct (Nat.eqb_spec k' k0); reflexivity.
    + destruct (Nat.eqb_spec k' k0) as [->|N']; [|exact IH]. destruct (Nat.eqb_spec k0 k); [congruence|reflexivity].
Qed.
Lemma update_get e : forall d k, aget (update d e) k = match aget (rev e) k with Some v => Some v | None => aget d k end.
Proof.
  induction e as [|[k0 v0] e IH]; intros d k; cbn [update fold_left rev]; [reflexivity|]. unfold update in IH. cbn [fst snd]. rewrite IH, aget_aset.
  assert (HA : forall (a b : list (nat * Z)), aget (a ++ b) k = match aget a k with Some v => Some v | None => aget b k end).
  { induction a as [|[k1 v1] a IHa]; intros b; cbn [app aget]; [reflexivity|]. destruct (k =? k1); [reflexivity|apply IHa]. }
  rewrite HA. cbn [aget]. destruct (aget (rev e) k); [reflexivity|]. destruct (Nat.eqb_spec k k0); reflexivity.
Qed.

Lemma aget_in {V} (d : list (nat * V)) k v : NoDup (map fst d) -> In (k, v) d -> aget d k = Some v.
Proof.
  induction d as [|[k0 v0] d IH]; cbn; [tauto|]. intros ND [H|H]; inversion ND as [|? ? N1 N2]; subst.
  - injection H as -> ->. rewrite Nat.eqb_refl. reflexivity.
  - destruct (Nat.eqb_spec k k0) as [->|]; [|auto]. exfalso. apply N1, in_map_iff. exists (k0, v). auto.
Qed.
Lemma aget_some {V} (d : list (nat * V)) k v : aget d k = Some v -> In (k, v) d.
Proof.
  induction d as [|[k0 v0] d IH]; cbn; [discriminate|]. destruct (Nat.eqb_spec k k0) as [->|]; [|auto]. intros H. injection H as ->. auto.
Qed.
Lemma update_nil d k : NoDup (map fst d) -> aget (update [] d) k = aget d k.
Proof.
  intros ND. rewrite update_get. destruct (aget (rev d) k) as [v|] eqn:E.
  - apply aget_some, in_rev in E. symmetry. apply aget_in; assumption.
  - cbn. destruct (aget d k) as [v|] eqn:E2; [|reflexivity]. apply aget_some, in_rev in E2. rewrite (aget_in (rev d) k v) in E; [discriminate| |exact E2].
    rewrite map_rev. apply NoDup_rev, ND.
Qed.

Section MeshProofs.
Variable F C : Type.
Notation heap := (heap F C).
Notation actions := (actions F C).
Notation rooted := (rooted F C).
Notation m_cls := (m_cls F C).
Notation m_base := (m_base F C).
Notation m_own := (m_own F C).
Notation m_attrs := (m_attrs F C).
Notation CView := (MeshModel.View F C).

Definition wf (h : heap) : Prop := forall x m, nth_error h x = Some m ->
  (m_cls m = CView -> exists b, m_base m = Some b /\ b < x) /\ (m_cls m <> CView -> m_base m = None).

(* a new object at the end *)
Lemma actions_snoc h o x : x < length h -> actions (h ++ [o]) x = actions h x.
Proof. intros H. unfold MeshModel.actions. rewrite nth_snoc. destruct (Nat.ltb_spec x (length h)); [reflexivity|lia]. Qed.
Lemma nth_lt {A} (l : list A) i x : nth_error l i = Some x -> i < length l.
Proof. intros H. apply nth_error_Some. congruence. Qed.

Lemma apply_eq h r f k m : apply F C h r f k m =
  if negb (allowed (a_mode (given f k m)) (a_kind (given f k m))) then Err AssertionError else
  let! acts := actions h r in
  Ok (length h, h ++ [{| MeshModel.m_cls := CView; MeshModel.m_base := Some r; MeshModel.m_own := acts ++ [given f k m]; MeshModel.m_attrs := update [] (attrs F C h r) |}]).
Proof.
  unfold apply. fold (given f k m). destruct (negb _); [reflexivity|]. unfold view. destruct (actions h r) as [acts|e]; cbn [rbind]; [|reflexivity].
  rewrite nth_snoc, Nat.ltb_irrefl, Nat.eqb_refl. f_equal. f_equal. apply nth_error_ext. intros i. rewrite replace_nth, !nth_snoc, app_length. cbn [length].
  destruct (Nat.eqb_spec i (length h)) as [->|N]; [|reflexivity]. rewrite Nat.ltb_irrefl. destruct (Nat.ltb_spec (length h) (length h + 1)); [reflexivity|lia].
Qed.

(* every operation appends an object, or changes the attrs of one *)
Definition appends (h h' : heap) (o : mesh F C) : Prop := h' = h ++ [o].
Lemma step_shape h o r h' : step F C h o = Ok (r, h') ->
  (exists m, h' = h ++ [m] /\ r = length h /\
     match o with
     | ONew _ _ c d => m = {| MeshModel.m_cls := c; MeshModel.m_base := None; MeshModel.m_own := []; MeshModel.m_attrs := d |} /\ c <> CView
     | OView _ _ x => exists acts, actions h x = Ok acts /\ m = {| MeshModel.m_cls := CView; MeshModel.m_base := Some x; MeshModel.m_own := acts; MeshModel.m_attrs := update [] (attrs F C h x) |}
     | OApply _ _ x f k mo => exists acts, actions h x = Ok acts /\ allowed (a_mode (given f k mo)) (a_kind (given f k mo)) = true /\
          m = {| MeshModel.m_cls := CView; MeshModel.m_base := Some x; MeshModel.m_own := acts ++ [given f k mo]; MeshModel.m_attrs := update [] (attrs F C h x) |}
     | OMember _ _ x p => exists acts mx q comp, actions h x = Ok acts /\ nth_error h x = Some mx /\ m_cls mx = CatalogMesh F C q comp /\
          m = {| MeshModel.m_cls := CatalogMesh F C p comp; MeshModel.m_base := None; MeshModel.m_own := acts; MeshModel.m_attrs := update [] (m_attrs mx) |}
     | OAttr _ _ _ _ _ => False
     end) \/
  (exists x k v mx, o = OAttr F C x k v /\ nth_error h x = Some mx /\ r = x /\
     h' = replace h x {| MeshModel.m_cls := m_cls mx; MeshModel.m_base := m_base mx; MeshModel.m_own := m_own mx; MeshModel.m_attrs := aset (m_attrs mx) k v |}).
Proof.
  destruct o as [c d|x|x f k mo|x k v|x p]; cbn [step].
  - unfold new. intros H. left. destruct c; try discriminate; injection H as <- <-; eexists; (split; [reflexivity|]); (split; [reflexivity|]); split; auto; discriminate.
  - unfold view. destruct (actions h x) as [acts|e]; cbn [rbind]; [|discriminate]. intros H. injection H as <- <-. left. eexists. split; [reflexivity|]. split; [reflexivity|]. eauto.
  - rewrite apply_eq. destruct (allowed _ _) eqn:EA; cbn [negb]; [|discriminate]. destruct (actions h x) as [acts|e]; cbn [rbind]; [|discriminate].
    intros H. injection H as <- <-. left. eexists. split; [reflexivity|]. split; [reflexivity|]. eauto.
  - unfold set_attr. destruct (nth_error h x) as [mx|] eqn:E; [|discriminate]. intros H. injection H as <- <-. right. exists x, k, v, mx. auto.
  - unfold member. destruct (nth_error h x) as [mx|] eqn:E; [|discriminate]. destruct mx as [c b o d]. destruct c as [|q comp|]; try discriminate.
    destruct (actions h x) as [acts|e] eqn:EA; cbn [rbind]; [|discriminate]. intros H. injection H as <- <-. left. eexists. split; [reflexivity|]. split; [reflexivity|].
    exists acts, {| MeshModel.m_cls := CatalogMesh F C q comp; MeshModel.m_base := b; MeshModel.m_own := o; MeshModel.m_attrs := d |}, q, comp. auto.
Qed.

Lemma wf_step h o r h' : wf h -> step F C h o = Ok (r, h') -> wf h'.
Proof.
  intros W H. apply step_shape in H. destruct H as [(m & -> & -> & H)|(x & k & v & mx & -> & E & -> & ->)].
  - intros y my. rewrite nth_snoc. destruct (Nat.ltb_spec y (length h)); [apply W|]. destruct (Nat.eqb_spec y (length h)) as [->|]; [|discriminate].
    intros Hm. injection Hm as <-. destruct o.
    + destruct H as [-> Hc]. cbn. split; [intros; contradiction|reflexivity].
    + destruct H as (acts & EA & ->). cbn. split; [|congruence]. intros _. eexists. split; [reflexivity|]. unfold MeshModel.actions in EA.
      destruct (nth_error h r) eqn:En; [|discriminate]. apply nth_lt in En. exact En.
    + destruct H as (acts & EA & _ & ->). cbn. split; [|congruence]. intros _. eexists. split; [reflexivity|]. unfold MeshModel.actions in EA.
      destruct (nth_error h r) eqn:En; [|discriminate]. apply nth_lt in En. exact En.
    + destruct H.
    + destruct H as (acts & mx & q & comp & _ & _ & _ & ->). cbn. split; [discriminate|reflexivity].
  - intros y my. rewrite replace_nth. destruct (Nat.eqb_spec y x) as [->|N]; [|apply W].
    destruct (x <? length h); [|discriminate]. intros Hm. injection Hm as <-. cbn. apply W, E.
Qed.
Lemma wf_exec l : forall h, wf h -> wf (exec F C h l).
Proof.
  induction l as [|o l IH]; intros h W; cbn [exec]; [exact W|]. destruct (step F C h o) as [[r h']|e] eqn:E; [|auto]. apply IH. eapply wf_step; eauto.
Qed.
Lemma wf_nil : wf [].
Proof. intros x m H. destruct x; discriminate. Qed.

(* ---- frame ---- *)
Lemma rooted_snoc h o x y : rooted h x y -> rooted (h ++ [o]) x y.
Proof.
  induction 1 as [x m E N|x m b y E V B R IH].
  - apply rooted_self with m; [|exact N]. rewrite nth_error_app1 by (apply nth_lt in E; exact E). exact E.
  - apply rooted_view with m b; auto. rewrite nth_error_app1 by (apply nth_lt in E; exact E). exact E.
Qed.
Lemma rooted_replace h z mz a x y : nth_error h z = Some mz -> rooted h x y ->
  rooted (replace h z {| MeshModel.m_cls := m_cls mz; MeshModel.m_base := m_base mz; MeshModel.m_own := m_own mz; MeshModel.m_attrs := a |}) x y.
Proof.
  intros Ez. assert (Lz := nth_lt _ _ _ Ez). induction 1 as [x m E N|x m b y E V B R IH].
  - destruct (Nat.eq_dec x z) as [->|NZ].
    + eapply rooted_self; [rewrite replace_nth, Nat.eqb_refl; destruct (Nat.ltb_spec z (length h)); [reflexivity|lia]|]. cbn. congruence.
    + eapply rooted_self; [rewrite replace_nth; destruct (Nat.eqb_spec x z); [contradiction|exact E]|exact N].
  - destruct (Nat.eq_dec x z) as [->|NZ].
    + eapply rooted_view; [rewrite replace_nth, Nat.eqb_refl; destruct (Nat.ltb_spec z (length h)); [reflexivity|lia]| | |exact IH]; cbn; congruence.
    + eapply rooted_view; [rewrite replace_nth; destruct (Nat.eqb_spec x z); [contradiction|exact E]|exact V|exact B|exact IH].
Qed.

Lemma apply_refused h x f k m : ~ sensible (given f k m) -> apply F C h x f k m = Err AssertionError.
Proof.
  intros H. rewrite apply_eq. destruct (allowed _ _) eqn:E; [|reflexivity]. exfalso. apply H. unfold sensible.
  destruct (a_mode (given f k m)), (a_kind (given f k m)); cbn in E; try discriminate; tauto.
Qed.

(* ---- compensation ---- *)
Definition once (h : heap) (ap : list action) : Prop := forall x y my q c, rooted h x y -> nth_error h y = Some my ->
  m_cls my = CatalogMesh F C q (Some c) -> ~ In c ap ->
  forall acts, actions h x = Ok acts -> times c acts = if truthy (aget (m_attrs my) 0) then 1 else 0.

Lemma rooted_inv_snoc h m x y : wf h -> x < length h -> rooted (h ++ [m]) x y -> rooted h x y.
Proof.
  intros W Hx R. remember (h ++ [m]) as h' eqn:Eh. revert Hx. induction R as [x mx E N|x mx b y E V B R IH]; intros Hx; subst h'.
  - rewrite nth_error_app1 in E by exact Hx. eapply rooted_self; eauto.
  - rewrite nth_error_app1 in E by exact Hx. apply rooted_view with mx b; [exact E|exact V|exact B|]. apply IH. destruct (W x mx E) as [W1 _]. destruct (W1 V) as (b' & B' & L). assert (b' = b) by congruence. lia.
Qed.
Lemma rooted_lt h x y : rooted h x y -> y < length h /\ x < length h.
Proof. induction 1 as [x m E N|x m b y E V B R IH]; apply nth_lt in E; tauto. Qed.
Lemma rooted_inv_replace h z mz a x y : nth_error h z = Some mz ->
  rooted (replace h z {| MeshModel.m_cls := m_cls mz; MeshModel.m_base := m_base mz; MeshModel.m_own := m_own mz; MeshModel.m_attrs := a |}) x y -> rooted h x y.
Proof.
  intros Ez R. remember (replace _ _ _) as h' eqn:Eh. induction R as [x mx E N|x mx b y E V B R IH]; subst h'; rewrite replace_nth in E; destruct (Nat.eqb_spec x z) as [->|NZ].
  - destruct (z <? length h); [|discriminate]. injection E as <-. cbn in N. eapply rooted_self; eauto.
  - eapply rooted_self; eauto.
  - destruct (z <? length h); [|discriminate]. injection E as <-. cbn in V, B. eapply rooted_view; eauto.
  - eapply rooted_view; eauto.
Qed.

Lemma times_app c a b : times c (a ++ b) = times c a + times c b.
Proof. apply count_occ_app. Qed.

Lemma once_step h o r h' ap : wf h -> once h ap -> (forall x m, nth_error h x = Some m -> forall q c, m_cls m = CatalogMesh F C q c -> m_own m = []) ->
  step F C h o = Ok (r, h') ->
  match o with OMember _ _ _ _ => False | OAttr _ _ _ k _ => k <> 0 | _ => True end ->
  once h' (match o with OApply _ _ _ f k m => given f k m :: ap | _ => ap end) /\
  (forall x m, nth_error h' x = Some m -> forall q c, m_cls m = CatalogMesh F C q c -> m_own m = []).
Proof.
  intros W O OE H HS. pose proof (wf_step _ _ _ _ W H) as W'. apply step_shape in H. destruct H as [(m & -> & -> & H)|(z & k & v & mz & -> & E & -> & ->)].
  - split.
    + intros x y my q c R Ey EC NI acts HA.
      destruct (Nat.eq_dec x (length h)) as [->|NX].
      * (* the new object *)
        assert (En : nth_error (h ++ [m]) (length h) = Some m) by (rewrite nth_snoc, Nat.ltb_irrefl, Nat.eqb_refl; reflexivity).
        destruct o as [c0 d|x0|x0 f k0 mo|x0 k0 v0|x0 p].
        -- destruct H as [-> HC]. inversion R as [? ? E1 N1|? ? ? ? E1 V1 B1 R1]; subst; rewrite En in E1; [|injection E1 as <-; discriminate].
           rewrite En in Ey. injection Ey as <-. cbn in EC. subst c0. cbn [MeshModel.m_attrs]. unfold MeshModel.actions in HA. rewrite En in HA. cbn in HA.
           destruct (truthy (aget d 0)); injection HA as <-; cbn; [|reflexivity]. destruct (action_eq_dec c c); [reflexivity|congruence].
        -- destruct H as (a0 & EA & ->). inversion R as [? ? E1 N1|? ? b ? E1 V1 B1 R1]; subst; rewrite En in E1; injection E1 as <-; [cbn in N1; congruence|].
           cbn in B1. injection B1 as <-. unfold MeshModel.actions in HA. rewrite En in HA. cbn in HA. injection HA as <-.
           assert (Lb : x0 < length h) by (unfold MeshModel.actions in EA; destruct (nth_error h x0) eqn:Q; [apply nth_lt in Q; exact Q|discriminate]).
           apply rooted_inv_snoc in R1; auto. assert (y < length h) as Ly by (apply rooted_lt in R1; tauto). rewrite nth_error_app1 in Ey by exact Ly.
           eapply O; eauto.
        -- destruct H as (a0 & EA & _ & ->). inversion R as [? ? E1 N1|? ? b ? E1 V1 B1 R1]; subst; rewrite En in E1; injection E1 as <-; [cbn in N1; congruence|].
           cbn in B1. injection B1 as <-. unfold MeshModel.actions in HA. rewrite En in HA. cbn in HA. injection HA as <-.
           assert (Lb : x0 < length h) by (unfold MeshModel.actions in EA; destruct (nth_error h x0) eqn:Q; [apply nth_lt in Q; exact Q|discriminate]).
           apply rooted_inv_snoc in R1; auto. assert (y < length h) as Ly by (apply rooted_lt in R1; tauto). rewrite nth_error_app1 in Ey by exact Ly.
           rewrite times_app. assert (times c [given f k0 mo] = 0) as ->.
           { cbn. destruct (action_eq_dec (given f k0 mo) c) as [Q|]; [|reflexivity]. exfalso. apply NI. left. exact Q. }
           rewrite Nat.add_0_r. eapply O; eauto. intros Hin. apply NI. right. exact Hin.
        -- destruct H.
        -- contradiction.
      * pose proof (rooted_lt _ _ _ R) as [_ Lx]. rewrite app_length in Lx. cbn in Lx. assert (Lx' : x < length h) by lia.
        apply rooted_inv_snoc in R; auto. assert (y < length h) as Ly by (apply rooted_lt in R; tauto). rewrite nth_error_app1 in Ey by exact Ly.
        rewrite actions_snoc in HA by exact Lx'. eapply O; eauto. destruct o; auto. intros Hin. apply NI. right. exact Hin.
    + intros x mx Ex. rewrite nth_snoc in Ex. destruct (x <? length h); [eauto|]. destruct (x =? length h); [|discriminate]. injection Ex as <-.
      destruct o as [c0 d|x0|x0 f k0 mo|x0 k0 v0|x0 p]; [destruct H as [-> _]|destruct H as (? & _ & ->)|destruct H as (? & _ & _ & ->)|destruct H|contradiction]; cbn; auto; discriminate.
  - cbn in HS. split.
    + intros x y my q c R Ey EC NI acts HA. apply rooted_inv_replace in R; [|exact E].
      assert (exists my0, nth_error h y = Some my0 /\ m_cls my0 = m_cls my /\ aget (m_attrs my0) 0 = aget (m_attrs my) 0) as (my0 & E0 & C0 & A0).
      { rewrite replace_nth in Ey. destruct (Nat.eqb_spec y z) as [->|N]; [|eauto]. destruct (z <? length h); [|discriminate]. injection Ey as <-. exists mz. cbn.
        rewrite aget_aset. destruct (Nat.eqb_spec 0 k); [congruence|auto]. }
      rewrite <- A0. apply (O x y my0 q c R E0); [congruence|exact NI|].
      unfold MeshModel.actions in *. rewrite replace_nth in HA. destruct (Nat.eqb_spec x z) as [->|N]; [|exact HA]. rewrite E.
      destruct (z <? length h); [|discriminate]. cbn in HA. rewrite aget_aset in HA. destruct (Nat.eqb_spec 0 k); [congruence|exact HA].
    + intros x mx Ex q c EC. rewrite replace_nth in Ex. destruct (Nat.eqb_spec x z) as [->|N]; [|eauto]. destruct (z <? length h); [|discriminate]. injection Ex as <-. cbn in *. eauto.
Qed.
Lemma once_ok l : forall h ap, wf h -> once h ap -> (forall x m, nth_error h x = Some m -> forall q c, m_cls m = CatalogMesh F C q c -> m_own m = []) ->
  steady F C l -> once (exec F C h l) (applied F C l ++ ap).
Proof.
  induction l as [|o l IH]; intros h ap W O OE ST; cbn [exec]; [exact O|].
  assert (ST' : steady F C l) by (intros o' Hin; apply ST; right; exact Hin). pose proof (ST o (or_introl eq_refl)) as SO.
  destruct (step F C h o) as [[r h']|e] eqn:E.
  - destruct (once_step h o r h' ap W O OE E SO) as [O' OE'].
    intros x y my q c R Ey EC NI. eapply (IH h' _ (wf_step _ _ _ _ W E) O' OE' ST'); eauto.
    intros Hin. apply NI. apply in_app_or in Hin. destruct o; cbn [applied]; apply in_or_app; tauto || (destruct Hin as [Hin|[Hin|Hin]]; [left; right; exact Hin|left; left; exact Hin|right; exact Hin]).
  - intros x y my q c R Ey EC NI. eapply (IH h ap W O OE ST'); eauto. intros Hin. apply NI. apply in_app_or in Hin. destruct o; cbn [applied]; apply in_or_app; cbn [In]; tauto.
Qed.
Lemma compensation_once l x y my q c acts : steady F C l -> let h := exec F C [] l in
  rooted h x y -> nth_error h y = Some my -> m_cls my = CatalogMesh F C q (Some c) -> ~ In c (applied F C l) -> actions h x = Ok acts ->
  times c acts = if truthy (aget (m_attrs my) 0) then 1 else 0.
Proof.
  intros ST h R Ey EC NI HA. eapply (once_ok l [] []); eauto.
  - apply wf_nil.
  - intros ? ? ? ? ? R'. apply rooted_lt in R'. cbn in R'. lia.
  - intros [|?] ? H; discriminate.
  - rewrite app_nil_r. exact NI.
Qed.
End MeshProofs.

Section Frame.
Variable F C : Type.
Variable r2c : F -> C.
Variable c2r : C -> F.
Variable fr : nat -> kind -> F -> F.
Variable fc : nat -> kind -> C -> C.
Notation heap := (heap F C).
Notation actions := (actions F C).
Notation rooted := (rooted F C).
Notation m_cls := (m_cls F C).
Notation m_base := (m_base F C).
Notation m_own := (m_own F C).
Notation m_attrs := (m_attrs F C).
Notation CView := (MeshModel.View F C).

Notation wf := (wf F C).
Notation same_mesh := (unchanged F C r2c c2r fr fc).
Lemma fields_snoc h o : wf h -> forall fuel x, x < length h ->
  real_field F C fuel (h ++ [o]) x = real_field F C fuel h x /\ complex_field F C fuel (h ++ [o]) x = complex_field F C fuel h x.
Proof.
  intros W. induction fuel as [|fuel IH]; intros x Hx; cbn [real_field complex_field]; [auto|]. rewrite nth_error_app1 by exact Hx.
  destruct (nth_error h x) as [m|] eqn:E; [|auto]. destruct (m_cls m) eqn:EC; auto. destruct (m_base m) as [b|] eqn:EB; [|auto].
  destruct (W x m E) as [W1 _]. destruct (W1 EC) as (b' & B' & L). apply IH. assert (b' = b) by congruence. lia.
Qed.
Lemma fields_fuel h : wf h -> forall f f' x, x < f -> x < f' ->
  real_field F C f h x = real_field F C f' h x /\ complex_field F C f h x = complex_field F C f' h x.
Proof.
  intros W. induction f as [|f IH]; intros [|f'] x H1 H2; try lia. cbn [real_field complex_field].
  destruct (nth_error h x) as [m|] eqn:E; [|auto]. destruct (m_cls m) eqn:EC; auto. destruct (m_base m) as [b|] eqn:EB; [|auto].
  destruct (W x m E) as [W1 _]. destruct (W1 EC) as (b' & B' & L). apply IH; assert (b' = b) by congruence; lia.
Qed.
Lemma fields_replace h z mz a : nth_error h z = Some mz -> forall fuel x,
  let h' := replace h z {| MeshModel.m_cls := m_cls mz; MeshModel.m_base := m_base mz; MeshModel.m_own := m_own mz; MeshModel.m_attrs := a |} in
  real_field F C fuel h' x = real_field F C fuel h x /\ complex_field F C fuel h' x = complex_field F C fuel h x.
Proof.
  intros Ez. induction fuel as [|fuel IH]; intros x; cbn [real_field complex_field]; [auto|]. rewrite replace_nth.
  destruct (Nat.eqb_spec x z) as [->|N].
  - destruct (Nat.ltb_spec z (length h)) as [L|L]; [|apply nth_lt in Ez; lia]. rewrite Ez. cbn. destruct (m_cls mz); auto. destruct (m_base mz); auto.
  - destruct (nth_error h x); auto. destruct (m_cls m); auto. destruct (m_base m); auto.
Qed.

Lemma compute_same h h' x : actions h' x = actions h x -> 
  real_field F C (length h') h' x = real_field F C (length h) h x -> complex_field F C (length h') h' x = complex_field F C (length h) h x ->
  forall m, compute F C r2c c2r fr fc h' x m = compute F C r2c c2r fr fc h x m.
Proof. intros HA HR HC m. unfold compute, to_field. rewrite HA, HR, HC. reflexivity. Qed.

Lemma frame h o r h' x : wf h -> step F C h o = Ok (r, h') -> x < length h ->
  (forall k v, o <> OAttr F C x k v) -> same_mesh h h' x.
Proof.
  intros W H Hx HO. pose proof H as H0. apply step_shape in H. destruct H as [(m & -> & -> & _)|(z & k & v & mz & -> & E & -> & ->)].
  - destruct (fields_snoc h m W (length (h ++ [m])) x Hx) as [R1 R2].
    destruct (fields_fuel h W (length (h ++ [m])) (length h) x) as [R3 R4]; [rewrite app_length; lia|exact Hx|].
    split; [apply actions_snoc; exact Hx|]. split; [unfold attrs; rewrite nth_error_app1 by exact Hx; reflexivity|]. split; [intros y; apply rooted_snoc|].
    apply compute_same; [apply actions_snoc; exact Hx|congruence|congruence].
  - assert (x <> z) by (intros ->; eapply HO; reflexivity).
    assert (HA : actions (replace h z {| MeshModel.m_cls := m_cls mz; MeshModel.m_base := m_base mz; MeshModel.m_own := m_own mz; MeshModel.m_attrs := aset (m_attrs mz) k v |}) x = actions h x).
    { unfold MeshModel.actions. rewrite replace_nth. destruct (Nat.eqb_spec x z); [contradiction|reflexivity]. }
    split; [exact HA|]. split; [unfold attrs; rewrite replace_nth; destruct (Nat.eqb_spec x z); [contradiction|reflexivity]|].
    split; [intros y; apply rooted_replace, E|]. rewrite replace_length || idtac.
    destruct (fields_replace h z mz (aset (m_attrs mz) k v) E (length h) x) as [R1 R2].
    apply compute_same; [exact HA| |]; rewrite replace_length; assumption.
Qed.

Lemma apply_ok l x f k m : let h := exec F C [] l in
  x < length h -> sensible (given f k m) -> forall acts, actions h x = Ok acts ->
  exists x' h', apply F C h x f k m = Ok (x', h') /\ x' = length h /\
    actions h' x' = Ok (acts ++ [given f k m]) /\
    (forall y, rooted h x y -> rooted h' x' y) /\
    (NoDup (map fst (attrs F C h x)) -> forall k, aget (attrs F C h' x') k = aget (attrs F C h x) k) /\
    (forall z, z < length h -> same_mesh h h' z).
Proof.
  intros h Hx HS acts HA. assert (W : wf h) by apply wf_exec, wf_nil.
  assert (AL : allowed (a_mode (given f k m)) (a_kind (given f k m)) = true).
  { destruct HS as [[-> [->| ->]]|[-> [->|[->| ->]]]]; reflexivity. }
  rewrite apply_eq, AL, HA. cbn [negb rbind].
  eexists. eexists. split; [reflexivity|]. split; [reflexivity|].
  split; [unfold MeshModel.actions; rewrite nth_snoc, Nat.ltb_irrefl, Nat.eqb_refl; reflexivity|].
  split.
  - intros y R. eapply rooted_view; [rewrite nth_snoc, Nat.ltb_irrefl, Nat.eqb_refl; reflexivity|reflexivity|reflexivity|]. apply rooted_snoc, R.
  - split; [intros ND k0; unfold attrs at 1; rewrite nth_snoc, Nat.ltb_irrefl, Nat.eqb_refl; apply update_nil, ND|].
    intros z Hz. apply (frame h (OApply F C x f k m) (length h)); [exact W| |exact Hz|].
    + cbn [step]. rewrite apply_eq, AL, HA. reflexivity.
    + discriminate.
Qed.
End Frame.

Section Compute.
Variable F C : Type.
Variable r2c : F -> C.
Variable c2r : C -> F.
Variable fr : nat -> kind -> F -> F.
Variable fc : nat -> kind -> C -> C.
Notation heap := (heap F C).
Notation actions := (actions F C).
Notation rooted := (rooted F C).
Notation m_cls := (m_cls F C).
Notation m_base := (m_base F C).
Notation m_own := (m_own F C).
Notation m_attrs := (m_attrs F C).
Notation CView := (MeshModel.View F C).

Notation wf := (wf F C).
(* ---- fields ---- *)
Lemma field_root h x y my : wf h -> rooted h x y -> nth_error h y = Some my -> forall fuel, x < fuel ->
  real_field F C fuel h x = (match m_cls my with Source _ _ f _ => f | CatalogMesh _ _ f _ => Some f | _ => None end) /\
  complex_field F C fuel h x = (match m_cls my with Source _ _ _ c => c | _ => None end).
Proof.
  intros W R. induction R as [x m E N|x m b y E V B R IH]; intros Hy fuel HF; (destruct fuel as [|fuel]; [lia|]); cbn [real_field complex_field].
  - assert (my = m) as -> by congruence. rewrite E. destruct (m_cls m) as [f c|f c|]; auto. congruence.
  - rewrite E, V, B. apply IH; [exact Hy|]. destruct (W x m E) as [W1 _]. destruct (W1 V) as (b' & B' & L). assert (b' = b) by congruence. lia.
Qed.

Hypothesis inv1 : forall x, c2r (r2c x) = x.
Hypothesis inv2 : forall c, r2c (c2r c) = c.
Notation to_real v := (match v with VReal _ _ x => x | VComplex _ _ c => c2r c end).
Notation act := (act F C r2c c2r fr fc).
Notation meaning1 := (meaning1 F C r2c c2r fr fc).
Notation meaning := (meaning F C r2c c2r fr fc).

Lemma act_ok v a : a_mode a <> MOther -> to_real (act v a) = meaning1 (to_real v) a.
Proof.
  intros H. unfold MeshModel.act, MeshSpec.meaning1, to_mode. destruct (a_mode a); [| |congruence]; destruct v as [x|c]; try reflexivity. rewrite inv2. reflexivity.
Qed.
Lemma acts_ok acts : Forall (fun a => a_mode a <> MOther) acts -> forall v, to_real (fold_left act acts v) = meaning acts (to_real v).
Proof.
  induction 1 as [|a acts H HF IH]; intros v; cbn [fold_left]; [reflexivity|]. rewrite IH, act_ok by assumption. reflexivity.
Qed.
Lemma to_mode_ok m v : m <> MOther -> to_mode F C r2c c2r m v = as_mode F C r2c m (to_real v).
Proof. intros H. destruct m, v; cbn; try congruence; rewrite ?inv2; reflexivity. Qed.

(* all actions held by reachable meshes passed the assertion *)
Definition sane (h : heap) : Prop := forall x m, nth_error h x = Some m ->
  Forall (fun a => a_mode a <> MOther) (m_own m) /\ (forall f c, m_cls m = CatalogMesh F C f (Some c) -> a_mode c <> MOther).
Lemma sane_actions h x acts : sane h -> actions h x = Ok acts -> Forall (fun a => a_mode a <> MOther) acts.
Proof.
  intros S. unfold MeshModel.actions. destruct (nth_error h x) as [m|] eqn:E; [|discriminate]. destruct (S x m E) as [S1 S2].
  destruct (m_cls m) as [f c|f comp|] eqn:EC; intros H; try (injection H as <-; assumption).
  destruct (truthy _); [|injection H as <-; assumption]. destruct comp as [c|]; [|discriminate]. injection H as <-. constructor; [eapply S2; eauto|exact S1].
Qed.
Notation fourier_comp := (fourier_comp F C).
Lemma allowed_mode m k : allowed m k = true -> m <> MOther.
Proof. destruct m; try discriminate; intros _ H; discriminate. Qed.
Lemma sane_step h o r h' : sane h -> (forall f c d, o = ONew F C (CatalogMesh F C f (Some c)) d -> a_mode c = MComplex) -> step F C h o = Ok (r, h') -> sane h'.
Proof.
  intros S HC H. apply step_shape in H. destruct H as [(m & -> & -> & H)|(x & k & v & mx & -> & E & -> & ->)].
  - intros y my. rewrite nth_snoc. destruct (Nat.ltb_spec y (length h)); [apply S|]. destruct (Nat.eqb_spec y (length h)) as [->|]; [|discriminate].
    intros Hm. injection Hm as <-. destruct o.
    + destruct H as [-> _]. cbn. split; [constructor|]. intros f c0 ->. rewrite (HC f c0 d eq_refl). discriminate.
    + destruct H as (acts & EA & ->). cbn. split; [eapply sane_actions; eauto|discriminate].
    + destruct H as (acts & EA & AL & ->). cbn. split; [|discriminate]. apply Forall_app. split; [eapply sane_actions; eauto|]. repeat constructor. eapply allowed_mode, AL.
    + destruct H.
    + destruct H as (acts & mx & q & comp & EA & En & EC & ->). cbn. split; [eapply sane_actions; eauto|]. intros f c Hc. injection Hc as <- ->.
      destruct (S _ _ En) as [_ S2]. eapply S2; eauto.
  - intros y my. rewrite replace_nth. destruct (Nat.eqb_spec y x) as [->|N]; [|apply S].
    destruct (x <? length h); [|discriminate]. intros Hm. injection Hm as <-. cbn. apply (S _ _ E).
Qed.
Lemma sane_exec l : forall h, sane h -> fourier_comp l -> sane (exec F C h l).
Proof.
  induction l as [|o l IH]; intros h S HC; cbn [exec]; [exact S|].
  assert (HC' : fourier_comp l) by (intros f c d Hin; apply (HC f c d); right; exact Hin).
  destruct (step F C h o) as [[r h']|e] eqn:E; [|auto]. apply IH; [|exact HC']. eapply sane_step; eauto. intros f c d ->. apply (HC f c d). left. reflexivity.
Qed.

Lemma compute_ok l x y my f0 acts m : fourier_comp l -> m <> MOther ->
  let h := exec F C [] l in
  rooted h x y -> nth_error h y = Some my -> source_field F C r2c c2r my f0 -> actions h x = Ok acts ->
  compute F C r2c c2r fr fc h x m = Ok (as_mode F C r2c m (meaning acts f0)).
Proof.
  intros HC HM h R Ey HS HA. assert (W : wf h) by apply wf_exec, wf_nil.
  assert (S : sane h) by (apply sane_exec; [intros ? ? H; destruct x0; discriminate|exact HC]).
  pose proof (sane_actions h x acts S HA) as SA.
  assert (Hx : x < length h) by (inversion R; eauto using nth_lt).
  destruct (field_root h x y my W R Ey (length h) Hx) as [FR FC].
  unfold compute. assert (mode_eqb m MOther = false) as -> by (destruct m; [reflexivity|reflexivity|congruence]). rewrite HA. cbn [rbind].
  set (first := match acts with [] => m | a :: _ => a_mode a end).
  assert (HF : first <> MOther) by (unfold first; destruct acts; [exact HM|inversion SA; assumption]).
  assert (exists v, to_field F C r2c c2r h x first = Ok v /\ to_real v = f0) as (v & -> & HV).
  { unfold to_field. rewrite FR, FC. unfold source_field in HS. destruct (m_cls my) as [[f|] [c|]|f comp|]; try contradiction.
    - destruct HS as [-> ->]. destruct first; [| |congruence]; eexists; split; try reflexivity. apply inv1.
    - subst f0. destruct first; [| |congruence]; eexists; split; try reflexivity. apply inv1.
    - subst f0. destruct first; [| |congruence]; eexists; split; try reflexivity.
    - subst f0. destruct first; [| |congruence]; eexists; split; try reflexivity. apply inv1. }
  cbn [rbind]. rewrite to_mode_ok by exact HM. rewrite acts_ok by exact SA. rewrite HV. reflexivity.
Qed.

End Compute.

Lemma apply_thm (F C : Type) r2c c2r fr fc (l : list (op F C)) x f k m acts :
  let h := exec F C [] l in
  x < length h -> sensible (given f k m) -> actions F C h x = Ok acts ->
  exists x' h', apply F C h x f k m = Ok (x', h') /\ x' = length h /\
    actions F C h' x' = Ok (acts ++ [given f k m]) /\
    (forall y, rooted F C h x y -> rooted F C h' x' y) /\
    (NoDup (map fst (attrs F C h x)) -> forall k, aget (attrs F C h' x') k = aget (attrs F C h x) k) /\
    (forall z, z < length h -> unchanged F C r2c c2r fr fc h h' z).
Proof. intros h Hx HS HA. exact (apply_ok F C r2c c2r fr fc l x f k m Hx HS acts HA). Qed.
Lemma frame_thm (F C : Type) r2c c2r fr fc (l : list (op F C)) o r h' x :
  let h := exec F C [] l in
  step F C h o = Ok (r, h') -> x < length h -> (forall k v, o <> OAttr F C x k v) ->
  unchanged F C r2c c2r fr fc h h' x.
Proof. intros h HS Hx HO. apply (frame F C r2c c2r fr fc h o r h' x); [|exact HS|exact Hx|exact HO]. apply wf_exec; auto. apply wf_nil. Qed.
Lemma result_attrs_ok (F C : Type) (h : heap F C) x field k : NoDup (map fst (attrs F C h x)) ->
  aget (result_attrs F C h x field) k = match aget (attrs F C h x) k with Some v => Some v | None => aget field k end.
Proof.
  intros ND. unfold result_attrs. rewrite update_get. rewrite <- (update_nil (attrs F C h x) k ND), (update_get (attrs F C h x) []). cbn [aget].
  destruct (aget (rev (attrs F C h x)) k); reflexivity.
Qed.
