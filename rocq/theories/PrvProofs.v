(* Proofs about resampling, preview and to_real_field of views. *)
From Verif Require Import Base BaseProofs CatModel MeshModel MeshSpec MeshProofs PrvModel.
Local Open Scope nat_scope.

Lemma pm_root (F C : Type) (size : nat -> Z) (h : heap F C) x y : wf F C h -> rooted F C h x y -> forall fuel, x < fuel -> pm F C size fuel h x = Some (size y).
Proof.
  intros W R. induction R as [x m E N|x m b y E V B R IH]; intros fuel HF; (destruct fuel as [|fuel]; [lia|]); cbn [pm].
  - rewrite E. destruct (m_cls F C m); congruence.
  - rewrite E, V, B. apply IH. destruct (W x m E) as [W1 _]. destruct (W1 V) as (b' & B' & L). assert (b' = b) by congruence. lia.
Qed.

Lemma compute_at_ok (F C : Type) (r2c : F -> C) (c2r : C -> F) fr fc rr rc size :
  (forall x, c2r (r2c x) = x) -> (forall c, r2c (c2r c) = c) -> forall (l : list (op F C)) x y my f0 acts m nm field, (forall n n' f, rc n n' (r2c f) = r2c (rr n n' f)) ->
  fourier_comp F C l -> m <> MOther ->
  let h := exec F C [] l in
  rooted F C h x y -> nth_error h y = Some my -> source_field F C r2c c2r my f0 -> actions F C h x = Ok acts ->
  exists r, compute_at F C r2c c2r fr fc rr rc size field h x m nm = Ok r /\
    r_nmesh F C r = match nm with Some k => k | None => size y end /\
    r_value F C r = as_mode F C r2c m (if (r_nmesh F C r =? size y)%Z then meaning F C r2c c2r fr fc acts f0
                                       else rr (size y) (r_nmesh F C r) (meaning F C r2c c2r fr fc acts f0)).
Proof.
  intros inv1 inv2 l x y my f0 acts m nm field HR HC HM h R Ey HS HA. assert (W : wf F C h) by apply wf_exec, wf_nil.
  unfold compute_at. pose proof (compute_ok F C r2c c2r fr fc inv1 inv2 l x y my f0 acts m HC HM R Ey HS HA) as E. fold h in E. rewrite E. cbn [rbind].
  rewrite (pm_root F C size h x y W R) by (inversion R; eauto using nth_lt). eexists. split; [reflexivity|]. cbn [r_nmesh r_value]. split; [reflexivity|].
  destruct (_ =? _)%Z; [reflexivity|]. destruct m; cbn [as_mode resample]; rewrite ?HR; congruence.
Qed.

Lemma preview_ok (F C P : Type) (r2c : F -> C) (c2r : C -> F) (gather : Z -> F -> P) size (l : list (op F C)) x y my f0 nm : let h := exec F C [] l in
  rooted F C h x y -> nth_error h y = Some my -> source_field F C r2c c2r my f0 ->
  preview F C P r2c c2r gather size h x nm = Ok (gather (match nm with Some k => k | None => size y end) f0).
Proof.
  intros h R Ey HS. assert (W : wf F C h) by apply wf_exec, wf_nil.
  assert (Hx : x < length h) by (inversion R; eauto using nth_lt).
  destruct (field_root F C (fun _ _ f => f) (fun _ _ c => c) h x y my W R Ey (length h) Hx) as [FR FC].
  assert (to_field F C r2c c2r h x MReal = Ok (VReal F C f0)) as HT.
  { unfold to_field. rewrite FR, FC. unfold source_field in HS. destruct (m_cls F C my) as [[f|] [c|]|f comp|]; try contradiction; repeat match goal with H : _ /\ _ |- _ => destruct H end; subst; reflexivity. }
  unfold preview. rewrite HT. cbn [rbind]. rewrite (pm_root F C size h x y W R) by exact Hx. destruct nm; reflexivity.
Qed.

Lemma to_real_view (F C : Type) (raw : nat -> F) (l : list (op F C)) x y my f comp b : let h := exec F C [] l in
  rooted F C h x y -> nth_error h y = Some my -> m_cls F C my = CatalogMesh F C f comp ->
  to_real F C raw (length h) h x b = Ok (Some (if b then f else if x =? y then raw y else f)).
Proof.
  intros h R Ey HC. assert (W : wf F C h) by apply wf_exec, wf_nil. assert (Hx : x < length h) by (inversion R; eauto using nth_lt). clearbody h. revert b. generalize (length h) as fuel, Hx. clear Hx.
  induction R as [x m E N|x m c y E V B R IH]; intros fuel HF b; (destruct fuel as [|fuel]; [lia|]); cbn [to_real].
  - assert (m = my) as -> by congruence. rewrite E, HC, Nat.eqb_refl. destruct b; reflexivity.
  - rewrite E, V, B. destruct (W x m E) as [W1 _]. destruct (W1 V) as (c' & B' & L). assert (c' = c) by congruence. subst c'.
    rewrite (IH Ey) by lia. assert (x <> y) as NE by (intros ->; congruence). destruct b; [reflexivity|]. destruct (Nat.eqb_spec x y); [contradiction|reflexivity].
Qed.
