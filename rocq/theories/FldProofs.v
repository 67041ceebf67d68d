From Verif Require Import Base.
From Coq Require Import String.
From Verif Require Import BaseProofs SaveModel SaveProofs MeshModel MeshSpec MeshProofs FldModel FldSpec.
Local Open Scope nat_scope.
Local Notation length := List.length.
Local Notation concat := List.concat.

(* ---- dictionaries ---- *)
Lemma dget_nil {V} k : dget (V:=V) [] k = None.
Proof. reflexivity. Qed.
Lemma dget_cons {V} k0 (v : V) d k : dget ((k0, v) :: d) k = if String.eqb k0 k then Some v else dget d k.
Proof. unfold dget. cbn [find fst]. destruct (String.eqb k0 k); reflexivity. Qed.
Lemma dget_app {V} (d : list (string * V)) e k : dget (d ++ e) k = match dget d k with Some v => Some v | None => dget e k end.
Proof. induction d as [|[k0 v] d IH]; [reflexivity|]. rewrite <- app_comm_cons, !dget_cons. destruct (String.eqb k0 k); [reflexivity|exact IH]. Qed.
Lemma existsb_dget {V} (d : list (string * V)) k : existsb (fun e => String.eqb (fst e) k) d = match dget d k with Some _ => true | None => false end.
Proof. induction d as [|[k0 v] d IH]; [reflexivity|]. rewrite dget_cons. cbn [existsb fst]. destruct (String.eqb k0 k); [reflexivity|exact IH]. Qed.
Lemma dget_dset {V} (d : list (string * V)) k v k' : dget (dset d k v) k' = if String.eqb k k' then Some v else dget d k'.
Proof.
  unfold dset. rewrite existsb_dget. destruct (dget d k) as [u|] eqn:E.
  - induction d as [|[k0 v0] d IH]; [discriminate|]. rewrite dget_cons in E. cbn [map fst]. destruct (String.eqb_spec k0 k) as [->|N].
    + rewrite !dget_cons. destruct (String.eqb_spec k k') as [->|N']; [reflexivity|]. clear IH E.
      induction d as [|[k1 v1] d IH]; [reflexivity|]. cbn [map fst]. destruct (String.eqb_spec k1 k) as [->|N1]; rewrite !dget_cons.
      * destruct (String.eqb_spec k k'); [congruence|]. rewrite IH. reflexivity.
      * rewrite IH. reflexivity.
    + rewrite !dget_cons. destruct (String.eqb_spec k0 k') as [->|N'].
      * destruct (String.eqb_spec k k'); [congruence|reflexivity].
      * apply IH. exact E.
  - rewrite dget_app, dget_cons, dget_nil. destruct (String.eqb_spec k k') as [->|N]; [rewrite E; reflexivity|]. destruct (dget d k'); reflexivity.
Qed.
Lemma dget_in {V} (d : list (string * V)) k v : NoDup (map fst d) -> In (k, v) d -> dget d k = Some v.
Proof.
  induction d as [|[k0 v0] d IH]; intros ND H; [destruct H|]. cbn [map fst] in ND. apply NoDup_cons_iff in ND as [N ND]. rewrite dget_cons. destruct H as [H|H].
  - injection H as -> ->. rewrite String.eqb_refl. reflexivity.
  - destruct (String.eqb_spec k0 k) as [->|N']; [|auto]. exfalso. apply N. apply in_map_iff. exists (k, v). auto.
Qed.
Lemma dget_none {V} (d : list (string * V)) k : ~ In k (map fst d) -> dget d k = None.
Proof.
  induction d as [|[k0 v0] d IH]; intros H; [reflexivity|]. rewrite dget_cons. cbn [map fst] in H. destruct (String.eqb_spec k0 k) as [->|N]; [exfalso; apply H; left; reflexivity|].
  apply IH. intros K. apply H. right. exact K.
Qed.
Lemma dget_some_in {V} (d : list (string * V)) k v : dget d k = Some v -> In (k, v) d.
Proof.
  induction d as [|[k0 v0] d IH]; [discriminate|]. rewrite dget_cons. destruct (String.eqb_spec k0 k) as [->|N]; intros H; [injection H as ->; left; reflexivity|right; auto].
Qed.
Lemma dset_keys {V} (d : list (string * V)) k v : NoDup (map fst d) -> NoDup (map fst (dset d k v)).
Proof.
  intros ND. unfold dset. rewrite existsb_dget. destruct (dget d k) as [u|] eqn:E.
  - assert (map fst (map (fun e => if String.eqb (fst e) k then (k, v) else e) d) = map fst d) as ->; [|exact ND].
    rewrite map_map. apply map_ext. intros [k0 v0]. cbn [fst]. destruct (String.eqb_spec k0 k) as [->|]; reflexivity.
  - rewrite map_app. cbn [map fst]. apply NoDup_rev in ND. rewrite <- (rev_involutive (map fst d ++ [k])). apply NoDup_rev. rewrite rev_app_distr. cbn [rev app].
    constructor; [|exact ND]. rewrite <- in_rev. intros H. apply in_map_iff in H as ([k0 v0] & <- & H). cbn [fst] in *.
    clear ND. induction d as [|[k1 v1] d IH]; [destruct H|]. rewrite dget_cons in E. destruct (String.eqb_spec k1 k0) as [->|N]; [discriminate|]. destruct H as [H|H]; [congruence|auto].
Qed.

(* ---- cutting ---- *)
Lemma concat_cut {A} sizes : forall (l : list A), sumn sizes = length l -> concat (cut sizes l) = l.
Proof.
  induction sizes as [|n s IH]; intros l H; cbn [cut concat].
  - destruct l; [reflexivity|discriminate H].
  - cbn [sumn fold_right] in H. fold (sumn s) in H. rewrite IH by (rewrite skipn_length; lia). apply firstn_skipn.
Qed.
Lemma skipn_add {A} a : forall b (l : list A), skipn (a + b) l = skipn b (skipn a l).
Proof. induction a as [|a IH]; intros b l; [reflexivity|]. destruct l; [destruct b; reflexivity|]. apply IH. Qed.
Lemma read_parts_cut {V} sizes : forall (data : list V), read_parts data sizes = cut sizes data.
Proof.
  induction sizes as [|n s IH]; intros data; [reflexivity|]. unfold read_parts. cbn [length seq map cut]. f_equal.
  rewrite <- seq_shift, map_map. rewrite <- IH. unfold read_parts. apply map_ext. intros r. cbn [firstn nth sumn fold_right]. fold (sumn (firstn r s)). f_equal. apply skipn_add.
Qed.

Section Roundtrip.
Context {V J : Type} (dumps : J -> option string) (loads : string -> res (attr J)).

Lemma store_get l : forall d k, NoDup (map fst l) ->
  dget (fold_left (store_attr dumps) l d) k = match dget d k with Some s => Some s | None => match dget l k with Some a => match save_attr dumps a with Ok s => Some s | Err _ => None end | None => None end end.
Proof.
  induction l as [|[k0 a] l IH]; intros d k ND; cbn [fold_left].
  - rewrite dget_nil. destruct (dget d k); reflexivity.
  - cbn [map fst] in ND. apply NoDup_cons_iff in ND as [N ND]. rewrite IH by exact ND. rewrite dget_cons. unfold store_attr. cbn [fst snd]. rewrite existsb_dget.
    destruct (dget d k0) as [s0|] eqn:E0.
    + destruct (dget d k) as [s|] eqn:E; [reflexivity|]. destruct (String.eqb_spec k0 k) as [->|N']; [congruence|reflexivity].
    + destruct (save_attr dumps a) as [s|e] eqn:ES.
      * rewrite dget_dset. destruct (String.eqb_spec k0 k) as [->|N']; [rewrite E0, ES; reflexivity|reflexivity].
      * destruct (String.eqb_spec k0 k) as [->|N']; [|reflexivity]. rewrite E0, ES, (dget_none l k N). reflexivity.
Qed.
Lemma store_keys l : forall d, NoDup (map fst d) -> NoDup (map fst (fold_left (store_attr dumps) l d)).
Proof.
  induction l as [|a l IH]; intros d ND; cbn [fold_left]; [exact ND|]. apply IH. unfold store_attr. destruct (existsb _ d); [exact ND|]. destruct (save_attr dumps (snd a)); [apply dset_keys|]; exact ND.
Qed.
Lemma load_get l : forall d d', NoDup (map fst l) -> load_attrs loads d l = Ok d' ->
  forall k, dget d' k = match dget l k with Some s => match load_value loads s with Ok v => Some v | Err _ => None end | None => dget d k end.
Proof.
  induction l as [|[k0 s] l IH]; intros d d' ND H k; cbn [load_attrs] in H.
  - injection H as <-. reflexivity.
  - cbn [map fst] in ND. apply NoDup_cons_iff in ND as [N ND]. destruct (load_value loads s) as [v|e] eqn:E; [|discriminate]. cbn [rbind] in H.
    rewrite (IH _ _ ND H), dget_cons, dget_dset. destruct (String.eqb_spec k0 k) as [->|N']; [|reflexivity]. rewrite (dget_none l k N), E. reflexivity.
Qed.
Lemma load_ok l : forall d, (forall k s, In (k, s) l -> exists v, load_value loads s = Ok v) -> exists d', load_attrs loads d l = Ok d'.
Proof.
  induction l as [|[k0 s] l IH]; intros d H; cbn [load_attrs]; [eauto|]. destruct (H k0 s (or_introl eq_refl)) as [v E]. rewrite E. cbn [rbind]. apply IH. intros k t Ht. apply (H k t). right. exact Ht.
Qed.

Definition plain (a : attr J) : Prop := forall s, a = AStr s -> String.prefix json_prefix s = false.
Lemma prefix_json s : String.prefix json_prefix (json_prefix ++ s) = true.
Proof. destruct s; reflexivity. Qed.
Lemma json_body s : substring 7 (String.length (json_prefix ++ s) - 7) (json_prefix ++ s) = s.
Proof. cbn [json_prefix String.append String.length substring]. replace (S (S (S (S (S (S (S (String.length s))))))) - 7) with (String.length s) by lia. induction s as [|a s IH]; [reflexivity|]. cbn [String.length substring]. rewrite IH. reflexivity. Qed.
Lemma save_load a s : json_ok dumps loads -> plain a -> save_attr dumps a = Ok s -> exists v, load_value loads s = Ok v /\ restored a v.
Proof.
  intros JO P. destruct a as [t|l|x|j]; cbn [save_attr]; intros H.
  - injection H as <-. cbn [load_value]. rewrite (P t eq_refl). eexists. split; reflexivity.
  - injection H as <-. cbn [load_value]. eexists. split; [reflexivity|]. destruct l as [|x [|y l]]; reflexivity.
  - injection H as <-. cbn [load_value]. eexists. split; reflexivity.
  - destruct (dumps j) as [t|] eqn:E; [|discriminate]. assert (s = SStr (json_prefix ++ t)) as -> by congruence. cbn [load_value load_attr]. rewrite prefix_json, json_body, (JO j t E). cbn [rbind]. eexists. split; reflexivity.
Qed.

Definition base_attrs (f : field V J) : list (string * stored) :=
  [("ndarray.shape"%string, SArr (map Z.of_nat (cshape (fd_fourier f) (fd_nmesh f)))); ("BoxSize"%string, SArr (fd_box f)); ("Nmesh"%string, SArr (map Z.of_nat (fd_nmesh f)))].
Lemma base_keys f : NoDup (map fst (base_attrs f)).
Proof. cbn. repeat constructor; cbn; intuition discriminate. Qed.
Lemma base_reserved f k : (exists s, dget (base_attrs f) k = Some s) <-> reserved k.
Proof.
  unfold base_attrs, reserved. rewrite !dget_cons, dget_nil. 
  destruct (String.eqb_spec "ndarray.shape" k) as [<-|N1]; [split; eauto|]. destruct (String.eqb_spec "BoxSize" k) as [<-|N2]; [split; eauto|]. destruct (String.eqb_spec "Nmesh" k) as [<-|N3]; [split; eauto|].
  split; [intros [s H]; discriminate|]. intros [->|[->| ->]]; congruence.
Qed.
Lemma squeeze_long (l : list Z) : 2 <= length l -> load_value loads (SArr l) = Ok (VAttr (AArr l)).
Proof. destruct l as [|x [|y l]]; cbn [length]; try lia. reflexivity. Qed.
Lemma half_halved l : half l = halved l.
Proof.
  unfold half. induction l as [|a l IH] using rev_ind; [reflexivity|]. rewrite rev_app_distr. cbn [rev app]. rewrite rev_involutive.
  clear IH. induction l as [|b l IH]; [reflexivity|]. cbn [app]. rewrite IH. destruct l; reflexivity.
Qed.
Lemma stored_cshape b l : cshape b l = stored_shape b l.
Proof. destruct b; [apply half_halved|reflexivity]. Qed.
Lemma cshape_length b (l : list nat) : length (cshape b l) = length l.
Proof.
  destruct b; [|reflexivity]. unfold cshape, half. rewrite <- (rev_length l). destruct (rev l) as [|n r]; [reflexivity|]. rewrite rev_length. reflexivity.
Qed.
Lemma itemsize_f8 (c f : bool) : (if c then itemsize c f =? 16 else itemsize c f =? 8) = f.
Proof. destruct c, f; reflexivity. Qed.

Theorem roundtrip (f : field V J) ws rs kwargs : json_ok dumps loads -> good_field f -> (forall k a, In (k, a) (fd_attrs f) -> plain a) ->
  sumn ws = length (fd_data f) -> sumn rs = prodn (stored_shape (fd_fourier f) (fd_nmesh f)) ->
  let ds := save_mesh dumps f ws in
  exists m, open_mesh loads ds kwargs = Ok m /\ b_fourier m = fd_fourier f /\ b_f8 m = fd_f8 f /\ b_nmesh m = fd_nmesh f /\ b_box m = fd_box f /\
    dget (b_attrs m) "ndarray.shape" = Some (VAttr (AArr (map Z.of_nat (stored_shape (fd_fourier f) (fd_nmesh f))))) /\
    read_mesh ds m (fd_fourier f) rs = Ok (Some (fd_data f)) /\ read_mesh ds m (negb (fd_fourier f)) rs = Ok None /\
    (forall k, ~ reserved k -> match dget (fd_attrs f) k with
       | Some a => match a with AObj j => dumps j <> None -> dget (b_attrs m) k = Some (VAttr a) | _ => exists v, dget (b_attrs m) k = Some v /\ restored a v end
       | None => dget (b_attrs m) k = dget kwargs k end).
Proof.
  intros JO (DIM & HB & HD & ND) PL HW HR ds. rewrite <- stored_cshape in *.
  set (sd := fold_left (store_attr dumps) (fd_attrs f) (base_attrs f)).
  assert (SD : ds_attrs ds = sd) by reflexivity.
  assert (NS : NoDup (map fst sd)) by (apply store_keys, base_keys).
  assert (G : forall k, dget sd k = match dget (base_attrs f) k with Some s => Some s | None => match dget (fd_attrs f) k with Some a => match save_attr dumps a with Ok s => Some s | Err _ => None end | None => None end end) by (intros k; apply store_get, ND).
  assert (LB : forall k s, dget (base_attrs f) k = Some s -> exists l, s = SArr l /\ load_value loads s = Ok (VAttr (AArr l))).
  { intros k s. unfold base_attrs. rewrite !dget_cons, dget_nil. intros H.
    destruct (String.eqb _ k); [|destruct (String.eqb _ k); [|destruct (String.eqb _ k); [|discriminate]]]; injection H as <-; eexists; (split; [reflexivity|]); apply squeeze_long; rewrite ?map_length, ?cshape_length; lia. }
  assert (LV : forall k s, In (k, s) sd -> exists v, load_value loads s = Ok v).
  { intros k s Hs. apply (dget_in sd k s NS) in Hs. rewrite G in Hs. destruct (dget (base_attrs f) k) as [s'|] eqn:EB.
    - injection Hs as <-. destruct (LB k s' EB) as (l & _ & E). eauto.
    - destruct (dget (fd_attrs f) k) as [a|] eqn:EA; [|discriminate]. destruct (save_attr dumps a) as [s'|] eqn:ES; [|discriminate]. injection Hs as <-.
      destruct (save_load a s' JO (PL k a (dget_some_in _ _ _ EA)) ES) as (v & E & _). eauto. }
  destruct (load_ok sd kwargs LV) as [a LA]. pose proof (load_get sd kwargs a NS LA) as GA.
  assert (A1 : dget a "ndarray.shape" = Some (VAttr (AArr (map Z.of_nat (cshape (fd_fourier f) (fd_nmesh f)))))).
  { rewrite GA, G. unfold base_attrs. rewrite dget_cons. cbn [String.eqb Ascii.eqb Bool.eqb]. rewrite squeeze_long by (rewrite map_length, cshape_length; lia). reflexivity. }
  assert (A2 : dget a "BoxSize" = Some (VAttr (AArr (fd_box f)))).
  { rewrite GA, G. unfold base_attrs. rewrite !dget_cons. cbn [String.eqb Ascii.eqb Bool.eqb]. rewrite squeeze_long by lia. reflexivity. }
  assert (A3 : dget a "Nmesh" = Some (VAttr (AArr (map Z.of_nat (fd_nmesh f))))).
  { rewrite GA, G. unfold base_attrs. rewrite !dget_cons. cbn [String.eqb Ascii.eqb Bool.eqb]. rewrite squeeze_long by (rewrite map_length; lia). reflexivity. }
  unfold open_mesh. rewrite SD, LA. cbn [rbind]. rewrite A1, A3, A2. cbn [mesh_dims as_vector]. rewrite Nat.eqb_refl. cbn [rbind]. rewrite map_length, HB, Nat.eqb_refl. cbn [rbind].
  eexists. split; [reflexivity|]. cbn [b_fourier b_f8 b_nmesh b_box b_attrs]. split; [reflexivity|]. split; [apply itemsize_f8|].
  split; [rewrite map_map; etransitivity; [|apply map_id]; apply map_ext; intros; apply Nat2Z.id|]. split; [reflexivity|].
  split; [rewrite !dget_dset; cbn [String.eqb Ascii.eqb Bool.eqb]; exact A1|].
  assert (DD : ds_data ds = fd_data f) by (unfold ds, save_mesh; cbn [ds_data]; apply concat_cut; exact HW).
  split; [|split].
  - unfold read_mesh. cbn [b_fourier]. change (ds_complex ds) with (fd_fourier f). rewrite Bool.eqb_reflx. cbn [negb]. rewrite DD.
    replace (sumn rs =? length (fd_data f)) with true by (symmetry; apply Nat.eqb_eq; congruence). cbn [negb]. rewrite Bool.andb_false_r.
    rewrite read_parts_cut. unfold unravel. rewrite concat_cut by congruence. replace (length (fd_data f) =? sumn rs) with true by (symmetry; apply Nat.eqb_eq; congruence). reflexivity.
  - unfold read_mesh. cbn [b_fourier]. change (ds_complex ds) with (fd_fourier f). destruct (fd_fourier f); reflexivity.
  - intros k NR. assert (EB : dget (base_attrs f) k = None).
    { destruct (dget (base_attrs f) k) eqn:E; [|reflexivity]. exfalso. apply NR. apply (base_reserved f). eauto. }
    assert (K : dget (dset (dset a "BoxSize" (VAttr (AArr (fd_box f)))) "Nmesh" (VAttr (AArr (map Z.of_nat (fd_nmesh f))))) k = dget a k).
    { rewrite !dget_dset. destruct (String.eqb_spec "Nmesh" k) as [<-|]; [exfalso; apply NR; right; right; reflexivity|]. destruct (String.eqb_spec "BoxSize" k) as [<-|]; [exfalso; apply NR; right; left; reflexivity|reflexivity]. }
    destruct (dget (fd_attrs f) k) as [at_|] eqn:EA.
    + assert (PA := PL k at_ (dget_some_in _ _ _ EA)). assert (RR : forall s, save_attr dumps at_ = Ok s -> exists v, dget a k = Some v /\ restored at_ v).
      { intros s ES. destruct (save_load at_ s JO PA ES) as (v & E & R). exists v. split; [|exact R]. rewrite GA, G, EB, EA, ES, E. reflexivity. }
      destruct at_ as [t|l|x|j]; rewrite K; try (eapply RR; reflexivity). intros DJ. cbn [save_attr] in RR. destruct (dumps j) as [t|]; [|congruence]. destruct (RR _ eq_refl) as (v & E & R). cbn [restored] in R. subst v. exact E.
    + rewrite K, GA, G, EB, EA. reflexivity.
Qed.

(* what is missing from the file *)
Theorem missing (ds : dataset V) kwargs : NoDup (map fst (ds_attrs ds)) -> (forall k s, In (k, s) (ds_attrs ds) -> exists v, load_value loads s = Ok v) ->
  (dget (ds_attrs ds) "ndarray.shape" = None /\ dget kwargs "ndarray.shape" = None \/ dget (ds_attrs ds) "Nmesh" = None /\ dget kwargs "Nmesh" = None) ->
  open_mesh loads ds kwargs = Err ValueError.
Proof.
  intros ND LV H. destruct (load_ok (ds_attrs ds) kwargs LV) as [a LA]. pose proof (load_get _ kwargs a ND LA) as GA. unfold open_mesh. rewrite LA. cbn [rbind].
  destruct H as [[H1 H2]|[H1 H2]].
  - rewrite (GA "ndarray.shape"%string), H1, H2. reflexivity.
  - rewrite (GA "Nmesh"%string), H1, H2. destruct (dget a "ndarray.shape"); reflexivity.
Qed.
End Roundtrip.

(* ---- ArrayMesh ---- *)
Lemma concat_root {A} (data : nat -> list A) root n : forall k, k <= root < k + n -> concat (map (fun r => if r =? root then data r else []) (seq k n)) = data root.
Proof.
  induction n as [|n IH]; intros k H; [lia|]. cbn [seq map concat]. destruct (Nat.eqb_spec k root) as [->|N].
  - assert (Z : forall k, root < k -> concat (map (fun r => if r =? root then data r else []) (seq k n)) = []).
    { clear. induction n as [|n IH]; intros k H; [reflexivity|]. cbn [seq map concat]. destruct (Nat.eqb_spec k root); [lia|]. apply IH. lia. }
    rewrite Z by lia. apply app_nil_r.
  - apply IH. lia.
Qed.
Section ArrayProofs.
Context {R C K : Type} (r2c : list nat -> list R -> list C) (irfftn : list nat -> list C -> list R) (scale : nat -> R -> R).
Theorem array_real n (arrays : nat -> array (R:=R) (C:=C)) box root (kwargs : list (string * K)) shape l : root < n -> arrays root = ARealA shape l -> length l = prodn shape ->
  array_mesh irfftn scale n arrays box root kwargs =
    if (length shape =? 2) || (length shape =? 3) then Ok {| a_nmesh := shape; a_box := box; a_data := l; a_attrs := [("BoxSize"%string, box); ("Nmesh"%string, map Z.of_nat shape)] |} else Err AssertionError.
Proof.
  intros Hr E L. unfold array_mesh. rewrite E. cbn [on_root fst]. destruct ((length shape =? 2) || (length shape =? 3)); [|reflexivity]. cbn [negb].
  unfold unravel. rewrite (concat_root (fun r => snd (on_root irfftn scale (arrays r)))) by lia. rewrite E. cbn [on_root snd]. rewrite L, Nat.eqb_refl. reflexivity.
Qed.
Lemma full_half shape n r : rev shape = n :: r -> full (half shape) = rev ((2 * (n / 2)) :: r).
Proof. intros E. unfold half. rewrite E. unfold full. rewrite rev_involutive. replace (n / 2 + 1 - 1) with (n / 2) by lia. reflexivity. Qed.
Lemma full_half_even shape n r : rev shape = n :: r -> Nat.Even n -> full (half shape) = shape.
Proof.
  intros E [q ->]. rewrite (full_half _ _ _ E). replace (2 * q / 2) with q by (rewrite Nat.mul_comm, Nat.div_mul by lia; reflexivity). rewrite <- E. apply rev_involutive.
Qed.
Theorem array_complex m (arrays : nat -> array (R:=R) (C:=C)) box root (kwargs : list (string * K)) shape n r x : fft_ok r2c irfftn scale -> root < m -> rev shape = n :: r -> Nat.Even n -> (length shape = 2 \/ length shape = 3) ->
  length x = prodn shape -> arrays root = AComplexA (half shape) (r2c shape x) ->
  exists a, array_mesh irfftn scale m arrays box root kwargs = Ok a /\ a_nmesh a = shape /\ a_data a = x.
Proof.
  intros FO Hr E EV D L EA. unfold array_mesh. rewrite EA. cbn [on_root fst]. rewrite (full_half_even _ _ _ E EV).
  replace ((length shape =? 2) || (length shape =? 3)) with true by (destruct D as [-> | ->]; reflexivity). cbn [negb]. unfold unravel. rewrite (concat_root (fun r => snd (on_root irfftn scale (arrays r)))) by lia. rewrite EA. cbn [on_root snd]. rewrite (full_half_even _ _ _ E EV), (FO shape x L). rewrite L, Nat.eqb_refl. cbn [rbind].
  eexists. split; [reflexivity|]. split; reflexivity.
Qed.
Theorem array_odd m (arrays : nat -> array (R:=R) (C:=C)) box root (kwargs : list (string * K)) shape n r l a : root < m -> rev shape = n :: r -> Nat.Odd n ->
  arrays root = AComplexA (half shape) l -> array_mesh irfftn scale m arrays box root kwargs = Ok a -> a_nmesh a <> shape.
Proof.
  intros Hr E [q ->] EA. unfold array_mesh. rewrite EA. cbn [on_root fst]. destruct (negb _); [discriminate|]. unfold unravel. destruct (_ =? _); [|discriminate]. cbn [rbind]. intros H. injection H as <-. cbn [a_nmesh].
  rewrite (full_half _ _ _ E). intros K0. apply (f_equal (@rev nat)) in K0. rewrite rev_involutive, E in K0. apply (f_equal (hd 0)) in K0. cbn [hd] in K0. lia.
Qed.
End ArrayProofs.

(* ---- preview ---- *)
Lemma preview_source (F C : Type) r2c c2r (l : list (op F C)) x y my f0 :
  (forall z, c2r (r2c z) = z) -> let h := exec F C [] l in rooted F C h x y -> nth_error h y = Some my -> source_field F C r2c c2r my f0 ->
  preview F C r2c c2r h x = Ok (VReal F C f0).
Proof.
  intros INV h R Ey HS. assert (W : wf F C h) by (apply wf_exec, wf_nil).
  assert (Hx : x < length h) by (inversion R; eauto using nth_lt).
  destruct (field_root F C (fun _ _ z => z) (fun _ _ z => z) h x y my W R Ey (length h) Hx) as [FR FC]. unfold preview, to_field. rewrite FR, FC. unfold source_field in HS.
  destruct (m_cls F C my) as [[f|] [c|]|f comp|]; try contradiction; try (subst f0; reflexivity). destruct HS as [-> _]. reflexivity.
Qed.
