From Coq Require Import String.
From Verif Require Import Base BaseProofs Num JsonModel JsonSpec.
Local Open Scope string_scope.
Local Open Scope list_scope.
Local Open Scope nat_scope.

Lemma rall_ok : forall (X Y : Type) (f : X -> res Y) (g : X -> Y) l, (forall x, In x l -> f x = Ok (g x)) -> rall (map f l) = Ok (map g l).
Proof.
  intros X Y f g l H. induction l as [|x l IH]; [reflexivity|]. cbn [map rall]. rewrite (H x (or_introl eq_refl)). cbn [rbind].
  rewrite IH by (intros y Hy; apply H; right; exact Hy). reflexivity.
Qed.

Lemma forall2_len : forall (X Y : Type) (R : X -> Y -> Prop) a b, Forall2 R a b -> List.length a = List.length b.
Proof. intros X Y R a b H. induction H; [reflexivity|]. cbn [List.length]. f_equal. assumption. Qed.
(* ---- nested lists ---- *)
Lemma chunks_map : forall (X Y : Type) (f : X -> Y) n m l, chunks n m (map f l) = map (map f) (chunks n m l).
Proof.
  intros X Y f n m. induction n as [|n IH]; intros l; [reflexivity|]. cbn [chunks map]. rewrite firstn_map. f_equal.
  rewrite <- IH. f_equal. clear. revert l. induction m as [|m IH]; intros [|x l]; try reflexivity. apply IH.
Qed.
Lemma chunks_concat : forall (X : Type) n m (l : list X), List.length l = n * m -> List.concat (chunks n m l) = l.
Proof.
  intros X n m. induction n as [|n IH]; intros l H; [destruct l; [reflexivity|discriminate]|]. cbn [chunks List.concat].
  rewrite IH; [apply firstn_skipn|]. rewrite skipn_length. cbn in H. lia.
Qed.
Lemma chunks_in : forall (X : Type) n m (l c : list X), List.length l = n * m -> In c (chunks n m l) -> List.length c = m /\ incl c l.
Proof.
  intros X n m. induction n as [|n IH]; intros l c H Hc; [destruct Hc|]. cbn in H. destruct Hc as [<-|Hc].
  - split; [rewrite firstn_length; lia|]. intros x Hx. rewrite <- (firstn_skipn m l). apply in_or_app. left. exact Hx.
  - apply IH in Hc; [|rewrite skipn_length; lia]. destruct Hc as [H1 H2]. split; [exact H1|].
    intros x Hx. rewrite <- (firstn_skipn m l). apply in_or_app. right. apply H2. exact Hx.
Qed.
Lemma chunks_length : forall (X : Type) n m (l : list X), List.length (chunks n m l) = n.
Proof. intros X n m. induction n as [|n IH]; intros l; [reflexivity|]. cbn [chunks List.length]. rewrite IH. reflexivity. Qed.

Fixpoint pnest (shape : list nat) (l : list pyval) : pyval :=
  match shape with
  | [] => match l with x :: _ => x | [] => PNone end
  | n :: shape => PList (map (pnest shape) (chunks n (prod shape) l))
  end.

Section Proofs.
Variable cast : string -> scalar -> res scalar.
Notation dec := (decode cast).

Lemma fadd_zero : forall re q, fadd re (zero_times (Fin q)) = re.
Proof. intros re q. cbn [zero_times]. destruct re as [a| | |]; cbn [fadd]; try reflexivity. f_equal. ring. Qed.
Lemma dec_list : forall js vs, rall (map dec js) = Ok vs -> dec (JList js) = Ok (PList vs).
Proof. intros js vs H. cbn [decode]. rewrite H. reflexivity. Qed.
Lemma dec_complex : forall re im, dec (JObj [("__complex__", JList [JScalar (SFloat re); JScalar (SFloat im)])]) = Ok (PScalar (to_complex re im)).
Proof. reflexivity. Qed.
Lemma dec_scalar : forall s, finite_imag s -> dec (scalar_json s) = Ok (PScalar s).
Proof.
  intros [b|z|x|t|re im] H; try reflexivity. destruct H as [q ->]. unfold scalar_json. rewrite dec_complex. unfold to_complex. rewrite fadd_zero. reflexivity.
Qed.
Lemma dec_nest : forall (g : json -> pyval) shape l, (forall x, In x l -> dec x = Ok (g x)) -> List.length l = prod shape ->
  dec (nest shape l) = Ok (pnest shape (map g l)).
Proof.
  intros g shape. induction shape as [|n shape IH]; intros l H Hl.
  - destruct l as [|x [|y l]]; try discriminate. apply H. left. reflexivity.
  - cbn [nest pnest]. cbn [prod] in Hl. apply dec_list. rewrite map_map, chunks_map, map_map. apply rall_ok.
    intros c Hc. destruct (chunks_in _ _ _ _ _ Hl Hc) as [H1 H2]. apply IH; [|exact H1]. intros x Hx. apply H. apply H2. exact Hx.
Qed.

Definition leaf (v : pyval) : Prop := match v with PList _ => False | _ => True end.
Lemma list_eqb_refl : forall l, list_eqb l l = true.
Proof. induction l as [|n l IH]; [reflexivity|]. cbn [list_eqb]. rewrite Nat.eqb_refl, IH. reflexivity. Qed.
Lemma discover_nest : forall shape l, Forall leaf l -> shape_ok shape -> List.length l = prod shape ->
  discover (pnest shape l) = Ok (shape, l).
Proof.
  induction shape as [|n shape IH]; intros l Hleaf Hs Hl.
  - destruct l as [|x [|y l]]; try discriminate. inversion Hleaf as [|? ? Hx]. subst. cbn [pnest]. destruct x; try reflexivity. destruct Hx.
  - cbn [pnest discover]. cbn [prod] in Hl. rewrite map_map.
    rewrite (rall_ok _ _ (fun c => discover (pnest shape c)) (fun c => (shape, c))).
    + cbn [rbind]. pose proof (chunks_concat _ n (prod shape) l Hl) as HC. pose proof (chunks_length _ n (prod shape) l) as HN.
      destruct (chunks n (prod shape) l) as [|c cs] eqn:E.
      * cbn in HN. subst n. cbn in HC. subst l. destruct shape as [|m shape]; [reflexivity|]. exfalso. unfold shape_ok in Hs. cbn [removelast] in Hs. inversion Hs. lia.
      * cbn [map]. cbn [fst].
        assert (Hf : forallb (fun r' : list nat * list pyval => list_eqb shape (fst r')) ((shape, c) :: map (fun c0 => (shape, c0)) cs) = true).
        { apply forallb_forall. intros r Hr. change ((shape, c) :: map (fun c0 => (shape, c0)) cs) with (map (fun c0 : list pyval => (shape, c0)) (c :: cs)) in Hr.
          apply in_map_iff in Hr. destruct Hr as [c' [<- _]]. apply list_eqb_refl. }
        rewrite Hf. cbn [map snd List.length] in *. rewrite map_length, map_map. cbn [snd]. rewrite map_id. rewrite HN, HC. reflexivity.
    + intros c Hc. destruct (chunks_in _ _ _ _ _ Hl Hc) as [H1 H2]. apply IH; [| |exact H1].
      * apply Forall_forall. intros x Hx. rewrite Forall_forall in Hleaf. apply Hleaf, H2, Hx.
      * unfold shape_ok in *. destruct shape as [|m shape]; [constructor|]. cbn [removelast] in Hs. inversion Hs. assumption.
Qed.
Lemma fixdata_nest : forall fs shape l, List.length l = prod shape -> Forall (fun v => exists r, v = PList r /\ List.length r = List.length fs) l ->
  fixdata (pnest shape l) (List.length shape) (Fields fs) = Ok (pnest shape (map (fun v => match v with PList r => PTuple r | _ => v end) l)).
Proof.
  intros fs shape. induction shape as [|n shape IH]; intros l Hl H.
  - destruct l as [|x [|y l]]; try discriminate. inversion H as [|? ? [r [-> Hr]]]. subst. cbn [pnest map List.length fixdata]. rewrite Hr, Nat.eqb_refl. reflexivity.
  - cbn [pnest List.length fixdata]. cbn [prod] in Hl. rewrite map_map, chunks_map, map_map.
    rewrite (rall_ok _ _ _ (fun c => pnest shape (map (fun v => match v with PList r => PTuple r | _ => v end) c))); [reflexivity|].
    intros c Hc. destruct (chunks_in _ _ _ _ _ Hl Hc) as [H1 H2]. apply IH; [exact H1|]. apply Forall_forall. intros x Hx. rewrite Forall_forall in H. apply H, H2, Hx.
Qed.

(* ---- arrays ---- *)
Definition entry_py (e : entry) : pyval := match e with One s => PScalar s | Row r => PList (map PScalar r) end.
Definition entry_final (e : entry) : pyval := match e with One s => PScalar s | Row r => PTuple (map PScalar r) end.
Lemma dec_entry : forall dt e, entry_ok cast dt e -> dec (entry_json e) = Ok (entry_py e).
Proof.
  intros [t|fs] [s|r] H; try (destruct H; fail); cbn [entry_json entry_py].
  - apply dec_scalar. apply H.
  - apply dec_list. rewrite map_map. apply rall_ok. cbn [entry_ok] in H.
    induction H as [|f s fs r [_ Hf] _ IH]; intros x Hx; [destruct Hx|]. destruct Hx as [<-|Hx]; [apply dec_scalar; exact Hf|apply IH; exact Hx].
Qed.
Lemma cast_final : forall dt e, entry_ok cast dt e -> cast_entry cast dt (entry_final e) = Ok e.
Proof.
  intros [t|fs] [s|r] H; try (destruct H; fail); cbn [cast_entry entry_final].
  - destruct H as [-> _]. reflexivity.
  - cbn [entry_ok] in H. assert (E : cast_row cast fs (map PScalar r) = Ok r).
    { induction H as [|f s fs r [Hf _] _ IH]; [reflexivity|]. cbn [map cast_row]. rewrite Hf. cbn [rbind]. rewrite IH. reflexivity. }
    rewrite E. reflexivity.
Qed.
Definition dtype_py (dt : dtype) : pyval :=
  match dt with Simple t => PScalar (SStr t) | Fields fs => PList (map (fun f => PList [PScalar (SStr (fst f)); PScalar (SStr (snd f))]) fs) end.
Lemma dec_dtype : forall dt, dec (dtype_json dt) = Ok (dtype_py dt).
Proof. intros [t|fs]; [reflexivity|]. cbn [dtype_json dtype_py]. apply dec_list. rewrite map_map. apply rall_ok. intros f _. reflexivity. Qed.
Lemma fixdtype_py : forall dt, fixdtype (dtype_py dt) = Ok dt.
Proof.
  intros [t|fs]; [reflexivity|]. cbn [dtype_py fixdtype]. rewrite map_map.
  rewrite (rall_ok _ _ _ (fun f => f)); [rewrite map_id; reflexivity|]. intros [a b] _. reflexivity.
Qed.
Definition shape_py (shape : list nat) : list pyval := map (fun n => PScalar (SInt (Z.of_nat n))) shape.
Lemma dec_shape : forall shape, dec (shape_json shape) = Ok (PList (shape_py shape)).
Proof. intros shape. unfold shape_json, shape_py. apply dec_list. rewrite map_map. apply rall_ok. intros n _. reflexivity. Qed.

Section Array.
Variables (dt : dtype) (shape : list nat) (data : list entry).
Hypothesis Hshape : shape_ok shape.
Hypothesis Hlen : List.length data = prod shape.
Hypothesis Hdata : Forall (entry_ok cast dt) data.
Lemma dec_data : dec (nest shape (map entry_json data)) = Ok (pnest shape (map entry_py data)).
Proof using Hlen Hdata.
  assert (G : forall l, List.length l = prod shape -> incl l data -> dec (nest shape (map entry_json l)) = Ok (pnest shape (map entry_py l))).
  { clear Hlen. generalize shape. intros sh l. revert l. induction sh as [|n sh IH]; intros l Hl Hin.
    - destruct l as [|x [|y l]]; try discriminate. cbn [map nest pnest]. rewrite Forall_forall in Hdata. apply (dec_entry dt). apply Hdata, Hin. left. reflexivity.
    - cbn [nest pnest]. cbn [prod] in Hl. apply dec_list. rewrite !chunks_map, !map_map. apply rall_ok. intros c Hc.
      destruct (chunks_in _ _ _ _ _ Hl Hc) as [H1 H2]. apply IH; [exact H1|]. intros x Hx. apply Hin, H2, Hx. }
  apply G; [exact Hlen|intros x Hx; exact Hx].
Qed.
Lemma fix_data : fixdata (pnest shape (map entry_py data)) (List.length (shape_py shape)) dt = Ok (pnest shape (map entry_final data)).
Proof using Hlen Hdata.
  unfold shape_py. rewrite map_length. destruct dt as [t|fs].
  - assert (E : fixdata (pnest shape (map entry_py data)) (List.length shape) (Simple t) = Ok (pnest shape (map entry_py data))) by (destruct (pnest shape (map entry_py data)); reflexivity).
    rewrite E. f_equal. f_equal. apply map_ext_in. intros [s|r] He; [reflexivity|]. rewrite Forall_forall in Hdata. specialize (Hdata _ He). destruct Hdata.
  - rewrite fixdata_nest.
    + f_equal. f_equal. rewrite map_map. apply map_ext_in. intros [s|r] He; [|reflexivity]. rewrite Forall_forall in Hdata. specialize (Hdata _ He). destruct Hdata.
    + rewrite map_length. exact Hlen.
    + apply Forall_forall. intros v Hv. apply in_map_iff in Hv. destruct Hv as [e [<- He]]. rewrite Forall_forall in Hdata. specialize (Hdata _ He).
      destruct e as [s|r]; [destruct Hdata|]. exists (map PScalar r). split; [reflexivity|]. rewrite map_length. cbn [entry_ok] in Hdata. symmetry. apply (forall2_len _ _ _ _ _ Hdata).
Qed.
Lemma np_data : np_array cast (pnest shape (map entry_final data)) dt = Ok (PArray dt shape data).
Proof using Hshape Hlen Hdata.
  unfold np_array. rewrite discover_nest; [| |exact Hshape|rewrite map_length; exact Hlen].
  - cbn [rbind fst snd]. rewrite map_map. rewrite (rall_ok _ _ _ (fun e => e)); [rewrite map_id; reflexivity|].
    intros e He. rewrite Forall_forall in Hdata. apply cast_final, Hdata, He.
  - apply Forall_forall. intros v Hv. apply in_map_iff in Hv. destruct Hv as [[s|r] [<- _]]; exact I.
Qed.
Definition array_py : list (string * pyval) := [("__dtype__", dtype_py dt); ("__shape__", PList (shape_py shape)); ("__data__", pnest shape (map entry_py data))].
Lemma dec_fields : rall (map (fun kv => let! v := dec (snd kv) in Ok (fst kv, v)) (array_fields dt shape data)) = Ok array_py.
Proof using Hlen Hdata.
  unfold array_fields, array_py. cbn [map snd fst rall]. rewrite dec_dtype. cbn [rbind]. rewrite dec_shape. cbn [rbind]. rewrite dec_data. reflexivity.
Qed.
Lemma dec_array : dec (JObj (array_fields dt shape data)) = Ok (PArray dt shape data).
Proof using Hshape Hlen Hdata.
  cbn [decode]. rewrite dec_fields. cbn [rbind]. unfold array_py.
  change (dict_of _) with [(KStr "__dtype__", dtype_py dt); (KStr "__shape__", PList (shape_py shape)); (KStr "__data__", pnest shape (map entry_py data))].
  unfold hook. change (lookup "__dtype__" _) with (Some (dtype_py dt)). cbv iota beta. rewrite fixdtype_py. cbn [rbind].
  change (get "__shape__" _) with (Ok (PList (shape_py shape))). cbn [rbind]. change (get "__data__" _) with (Ok (pnest shape (map entry_py data))). cbn [rbind].
  rewrite fix_data. cbn [rbind]. rewrite np_data. reflexivity.
Qed.
End Array.
Lemma dec_quantity : forall unit t shape data, quantity_keeps t = true -> shape_ok shape -> List.length data = prod shape -> Forall (holds cast t) data ->
  dec (JObj (("__unit__", JScalar (SStr unit)) :: array_fields (Simple t) shape (map One data))) = Ok (PQuantity unit t shape data).
Proof.
  intros unit t shape data Ht Hs Hl Hd.
  assert (Hl' : List.length (map One data) = prod shape) by (rewrite map_length; exact Hl).
  assert (Hd' : Forall (entry_ok cast (Simple t)) (map One data)).
  { apply Forall_forall. intros e He. apply in_map_iff in He. destruct He as [x [<- Hx]]. rewrite Forall_forall in Hd. apply Hd, Hx. }
  change (decode cast (JObj (("__unit__", JScalar (SStr unit)) :: array_fields (Simple t) shape (map One data))))
    with (let! kvs := rall (map (fun kv => let! v := dec (snd kv) in Ok (fst kv, v)) (("__unit__", JScalar (SStr unit)) :: array_fields (Simple t) shape (map One data))) in hook cast (dict_of kvs)).
  assert (E : rall (map (fun kv => let! v := dec (snd kv) in Ok (fst kv, v)) (("__unit__", JScalar (SStr unit)) :: array_fields (Simple t) shape (map One data))) =
     Ok (("__unit__", PScalar (SStr unit)) :: array_py (Simple t) shape (map One data))).
  { pose proof (dec_fields (Simple t) shape (map One data) Hl' Hd') as E0.
    change (map (fun kv => let! v := dec (snd kv) in Ok (fst kv, v)) (("__unit__", JScalar (SStr unit)) :: array_fields (Simple t) shape (map One data)))
      with (Ok ("__unit__", PScalar (SStr unit)) :: map (fun kv => let! v := dec (snd kv) in Ok (fst kv, v)) (array_fields (Simple t) shape (map One data))).
    cbn [rall]. rewrite E0. reflexivity. }
  rewrite E. cbn [rbind]. unfold array_py.
  change (dict_of _) with [(KStr "__unit__", PScalar (SStr unit)); (KStr "__dtype__", dtype_py (Simple t)); (KStr "__shape__", PList (shape_py shape)); (KStr "__data__", pnest shape (map entry_py (map One data)))].
  unfold hook. change (lookup "__dtype__" _) with (Some (dtype_py (Simple t))). cbv iota beta. rewrite fixdtype_py. cbn [rbind].
  change (get "__shape__" _) with (Ok (PList (shape_py shape))). cbn [rbind]. change (get "__data__" _) with (Ok (pnest shape (map entry_py (map One data)))). cbn [rbind].
  rewrite (fix_data (Simple t) shape (map One data) Hl' Hd'). cbn [rbind]. rewrite (np_data (Simple t) shape (map One data) Hs Hl' Hd'). cbn [rbind].
  change (lookup "__unit__" _) with (Some (PScalar (SStr unit))). cbv iota beta. cbn [rbind as_str quantity]. rewrite map_map. cbn [one_scalar].
  rewrite (rall_ok _ _ _ (fun s => s)) by reflexivity. rewrite map_id. cbn [rbind]. rewrite Ht. reflexivity.
Qed.
Lemma dec_quantity_nested : forall unit t shape data, quantity_keeps t = true -> shape_ok shape -> List.length data = prod shape -> Forall (holds cast t) data ->
  dec (JObj [("__unit__", JScalar (SStr unit)); ("__data__", JObj (array_fields (Simple t) shape (map One data)))]) = Ok (PQuantity unit t shape data).
Proof.
  intros unit t shape data Ht Hs Hl Hd.
  assert (E : dec (JObj (array_fields (Simple t) shape (map One data))) = Ok (PArray (Simple t) shape (map One data))).
  { apply dec_array; [exact Hs|rewrite map_length; exact Hl|]. apply Forall_forall. intros e He. apply in_map_iff in He. destruct He as [x [<- Hx]]. rewrite Forall_forall in Hd. apply Hd, Hx. }
  remember (JObj (array_fields (Simple t) shape (map One data))) as j. cbn [decode map snd fst rall rbind]. rewrite E. cbn [rbind].
  change (dict_of _) with [(KStr "__unit__", PScalar (SStr unit)); (KStr "__data__", PArray (Simple t) shape (map One data))].
  unfold hook. change (lookup "__dtype__" _) with (@None pyval). cbn [rbind]. change (lookup "__unit__" _) with (Some (PScalar (SStr unit))). cbv iota beta.
  change (get "__data__" _) with (Ok (PArray (Simple t) shape (map One data))). cbn [rbind as_str quantity]. rewrite map_map. cbn [one_scalar].
  rewrite (rall_ok _ _ _ (fun s => s)) by reflexivity. rewrite map_id. cbn [rbind]. rewrite Ht. reflexivity.
Qed.

(* ---- dictionaries ---- *)
Lemma dict_set_new : forall k v d, ~ In (KStr k) (map fst d) -> dict_set k v d = d ++ [(KStr k, v)].
Proof.
  intros k v d. induction d as [|[k' v'] d IH]; intros H; [reflexivity|]. cbn [dict_set].
  destruct (eqb_key k' k) eqn:E.
  - exfalso. apply H. left. destruct k' as [s|z]; [|discriminate]. cbn in E. apply String.eqb_eq in E. subst. reflexivity.
  - rewrite IH; [reflexivity|]. intros G. apply H. right. exact G.
Qed.
Lemma dict_of_new : forall kvs, NoDup (map fst kvs) -> dict_of kvs = map (fun kv => (KStr (fst kv), snd kv)) kvs.
Proof.
  intros kvs H. unfold dict_of.
  assert (G : forall acc, (forall k, In k (map fst kvs) -> ~ In (KStr k) (map fst acc)) ->
    fold_left (fun d kv => dict_set (fst kv) (snd kv) d) kvs acc = acc ++ map (fun kv => (KStr (fst kv), snd kv)) kvs).
  { induction kvs as [|[k v] kvs IH]; intros acc Ha; [symmetry; apply app_nil_r|]. cbn [map fst snd] in *. inversion H as [|? ? H1 H2]. subst. cbn [fold_left fst snd].
    rewrite dict_set_new by (apply Ha; left; reflexivity). rewrite IH; [rewrite <- app_assoc; reflexivity|exact H2|].
    intros k' Hk' G. rewrite map_app in G. apply in_app_or in G. destruct G as [G|[G|[]]]; [apply (Ha k'); [right; exact Hk'|exact G]|].
    cbn in G. injection G as <-. contradiction. }
  apply (G []). intros k _ [].
Qed.
Lemma lookup_none : forall k d, ~ In (KStr k) (map fst d) -> lookup k d = None.
Proof.
  intros k d H. unfold lookup. induction d as [|[k' v] d IH]; [reflexivity|]. cbn [find fst]. destruct (eqb_key k' k) eqn:E.
  - exfalso. apply H. left. destruct k' as [s|z]; [|discriminate]. cbn in E. apply String.eqb_eq in E. subst. reflexivity.
  - apply IH. intros G. apply H. right. exact G.
Qed.
Definition plain_keys (d : list (key * pyval)) : Prop := (forall k v, In (k, v) d -> exists s, k = KStr s /\ ~ In s reserved) /\ NoDup (map fst d).
Lemma hook_plain : forall d, plain_keys d -> hook cast d = Ok (PDict d).
Proof.
  intros d [H _]. assert (N : forall s, In s reserved -> lookup s d = None).
  { intros s Hs. apply lookup_none. intros G. apply in_map_iff in G. destruct G as [[k v] [E Hin]]. cbn in E. subst k. destruct (H _ _ Hin) as [s' [E Hn]]. injection E as <-. contradiction. }
  unfold hook. rewrite !N by (cbn; tauto). reflexivity.
Qed.
Lemma dec_pairs : forall d js, plain_keys d -> rall (map (fun kv => let! j := encode (snd kv) in Ok (key_text (fst kv), j)) d) = Ok js ->
  (forall k v, In (k, v) d -> (let! j := encode v in dec j) = Ok v) -> dec (JObj js) = Ok (PDict d).
Proof.
  intros d js Hp HE HR.
  assert (G : rall (map (fun kv => let! v := dec (snd kv) in Ok (fst kv, v)) js) = Ok (map (fun kv => (key_text (fst kv), snd kv)) d)).
  { destruct Hp as [_ _]. revert js HE. induction d as [|[k v] d IH]; intros js HE; cbn [map rall] in HE; [injection HE as <-; reflexivity|].
    pose proof (HR k v (or_introl eq_refl)) as Hv. cbn [fst snd] in HE. destruct (encode v) as [j|]; cbn [rbind] in *; [|discriminate].
    destruct (rall (map (fun kv => let! j := encode (snd kv) in Ok (key_text (fst kv), j)) d)) as [js'|] eqn:E; cbn [rbind] in *; [|discriminate].
    injection HE as <-. cbn [map rall snd fst]. rewrite Hv. cbn [rbind]. rewrite (IH (fun k v H => HR k v (or_intror H)) js' eq_refl). reflexivity. }
  cbn [decode]. rewrite G. cbn [rbind].
  assert (K : map (fun kv : string * pyval => (KStr (fst kv), snd kv)) (map (fun kv : key * pyval => (key_text (fst kv), snd kv)) d) = d).
  { rewrite map_map. cbn [fst snd]. destruct Hp as [Hp _]. induction d as [|[k v] d IH]; [reflexivity|]. cbn [map fst snd]. destruct (Hp k v (or_introl eq_refl)) as [s [-> _]]. cbn [key_text]. f_equal.
    clear - Hp. induction d as [|[k v'] d IH]; [reflexivity|]. cbn [map fst snd]. destruct (Hp k v' (or_intror (or_introl eq_refl))) as [s' [-> _]]. cbn [key_text]. f_equal. apply IH.
    intros k0 v0 [H|H]; [apply (Hp k0 v0); left; exact H|apply (Hp k0 v0); right; right; exact H]. }
  rewrite dict_of_new; [rewrite K; apply hook_plain; exact Hp|].
  destruct Hp as [Hp Hn]. apply (f_equal (map fst)) in K. rewrite !map_map in K. cbn [fst] in K. rewrite map_map. cbn [fst].
  rewrite <- K in Hn. rewrite <- (map_map (fun x : key * pyval => key_text (fst x)) KStr) in Hn. apply NoDup_map_inv in Hn. exact Hn.
Qed.
End Proofs.

(* ---- any value ---- *)
Section Ind.
Variable P : pyval -> Prop.
Hypothesis H1 : P PNone.
Hypothesis H2 : forall s, P (PScalar s).
Hypothesis H3 : forall l, Forall P l -> P (PList l).
Hypothesis H4 : forall l, Forall P l -> P (PTuple l).
Hypothesis H5 : forall d, Forall (fun kv => P (snd kv)) d -> P (PDict d).
Hypothesis H6 : forall t s, P (PNumpy t s).
Hypothesis H7 : forall dt shape data, P (PArray dt shape data).
Hypothesis H8 : forall unit t shape data, P (PQuantity unit t shape data).
Hypothesis H9 : forall d, Forall (fun kv => P (snd kv)) d -> P (PCosmo d).
Fixpoint pyval_all (v : pyval) : P v :=
  match v with
  | PNone => H1
  | PScalar s => H2 s
  | PList l => H3 l ((fix go l := match l return Forall P l with [] => Forall_nil _ | x :: l => Forall_cons _ (pyval_all x) (go l) end) l)
  | PTuple l => H4 l ((fix go l := match l return Forall P l with [] => Forall_nil _ | x :: l => Forall_cons _ (pyval_all x) (go l) end) l)
  | PDict d => H5 d ((fix go d := match d return Forall (fun kv => P (snd kv)) d with [] => Forall_nil _ | kv :: d => Forall_cons kv (pyval_all (snd kv)) (go d) end) d)
  | PNumpy t s => H6 t s
  | PArray dt shape data => H7 dt shape data
  | PQuantity unit t shape data => H8 unit t shape data
  | PCosmo d => H9 d ((fix go d := match d return Forall (fun kv => P (snd kv)) d with [] => Forall_nil _ | kv :: d => Forall_cons kv (pyval_all (snd kv)) (go d) end) d)
  end.
End Ind.

Lemma rall_exists : forall (X Y : Type) (f : X -> res Y) l, (forall x, In x l -> exists y, f x = Ok y) -> exists ys, rall (map f l) = Ok ys.
Proof.
  intros X Y f l H. induction l as [|x l IH]; [exists []; reflexivity|]. destruct (H x (or_introl eq_refl)) as [y Hy].
  destruct IH as [ys Hys]; [intros z Hz; apply H; right; exact Hz|]. exists (y :: ys). cbn [map rall]. rewrite Hy. cbn [rbind]. rewrite Hys. reflexivity.
Qed.
Theorem round_trip : forall cast v, restorable cast v -> (let! j := encode v in decode cast j) = Ok v.
Proof.
  intros cast v. induction v using pyval_all; intros R.
  - reflexivity.
  - inversion R as [|? Hs | | | | | | |]. subst. cbn [encode rbind]. apply dec_scalar. exact Hs.
  - inversion R as [| |? Hs | | | | | |]. subst. cbn [encode].
    assert (G : exists js, rall (map encode l) = Ok js /\ rall (map (decode cast) js) = Ok l).
    { clear R. induction l as [|x l IH]; [exists []; split; reflexivity|]. inversion H as [|? ? Hx Hl]. inversion Hs as [|? ? Rx Rl]. subst.
      destruct (IH Hl Rl) as [js [E1 E2]]. specialize (Hx Rx). cbn [map rall]. destruct (encode x) as [j|]; cbn [rbind] in *; [|discriminate].
      exists (j :: js). rewrite E1. cbn [rbind map rall]. rewrite Hx. cbn [rbind]. rewrite E2. split; reflexivity. }
    destruct G as [js [E1 E2]]. rewrite E1. cbn [rbind]. apply dec_list. exact E2.
  - inversion R.
  - inversion R as [| | |? Hd Hn | | | | |]. subst. cbn [encode].
    assert (Hr : forall k v, In (k, v) d -> (let! j := encode v in decode cast j) = Ok v).
    { intros k v Hin. rewrite Forall_forall in H. apply (H _ Hin). apply (Hd _ _ Hin). }
    destruct (rall_exists _ _ (fun kv : key * pyval => let! j := encode (snd kv) in Ok (key_text (fst kv), j)) d) as [js Hjs].
    { intros [k v] Hin. cbn [fst snd]. specialize (Hr k v Hin). destruct (encode v) as [j|]; [|discriminate]. exists (key_text k, j). reflexivity. }
    rewrite Hjs. cbn [rbind]. apply dec_pairs; [|exact Hjs|exact Hr]. split; [|exact Hn]. intros k v Hin. apply (Hd _ _ Hin).
  - inversion R.
  - inversion R as [| | | |? ? ? Hs Hl Hd | | | |]. subst. cbn [encode rbind]. apply dec_array; assumption.
  - inversion R as [| | | | |? ? ? ? Ht Hne Hs Hl Hd |? x |? re q |]; subst.
    + assert (Hk : quantity_keeps t = true) by (destruct Ht as [<-|[<-|[<-|[<-|[]]]]]; reflexivity).
      cbn [encode]. destruct (1 <? prod shape) eqn:E; [cbn [rbind]; apply dec_quantity; assumption|].
      destruct shape as [|n shape]; [congruence|]. cbn [rbind]. apply dec_quantity_nested; assumption.
    + reflexivity.
    + cbn [encode prod Nat.ltb Nat.leb String.eqb Ascii.eqb Bool.eqb orb rbind]. unfold scalar_json.
      change (decode cast _) with (Ok (PQuantity unit "<c16" [] [SComplex (fadd re (zero_times (Fin q))) (Fin q)])). rewrite fadd_zero. reflexivity.
  - inversion R as [| | | | | | | |? Hd Hn]. subst. cbn [encode].
    assert (Hr : forall k v, In (k, v) d -> (let! j := encode v in decode cast j) = Ok v).
    { intros k v Hin. rewrite Forall_forall in H. apply (H _ Hin). apply (Hd _ _ Hin). }
    destruct (rall_exists _ _ (fun kv : key * pyval => let! j := encode (snd kv) in Ok (key_text (fst kv), j)) d) as [js Hjs].
    { intros [k v] Hin. cbn [fst snd]. specialize (Hr k v Hin). destruct (encode v) as [j|]; [|discriminate]. exists (key_text k, j). reflexivity. }
    rewrite Hjs. cbn [rbind].
    assert (E : decode cast (JObj js) = Ok (PDict d)).
    { apply dec_pairs; [|exact Hjs|exact Hr]. split; [|exact Hn]. intros k v Hin. apply (Hd _ _ Hin). }
    remember (JObj js) as j. cbn [decode map snd fst rall rbind]. rewrite E. reflexivity.
Qed.
