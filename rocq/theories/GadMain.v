From Verif Require Import Base BaseProofs IoModel IoSpec IoProofs GadModel GadSpec GadProofs GadScan.
From Coq Require Import String.
Local Open Scope Z_scope.
Local Notation length := List.length.
Local Notation concat := List.concat.

Definition column_at (sn : snapshot) (p : nat) (file : list Z) (d : coldef) (b : block) (off : Z) (dt : dtype) : Prop :=
  dtype_ok d dt /\ (stored_items sn d b <> [] -> dt_size dt = bl_width b) /\ (In p (stored_types sn d) -> located file off (dt_size dt) (bl_items b p)).
Lemma scan_columns_ok sn p file : length (sn_npart sn) = 6%nat -> length (sn_mass sn) = 6%nat -> Forall (fun m => zlen m = 8) (sn_mass sn) ->
  forall defs blocks, Forall2 (block_ok sn) defs blocks -> Forall2 (fun d b => zlen (stored_items sn d b) * bl_width b < 2 ^ 31) defs blocks ->
  forall pre post s, file = pre ++ concat (map (fun db => block_bytes sn (fst db) (snd db)) (combine defs blocks)) ++ post -> sc_ptr s = zlen pre ->
  exists s', scan_columns file (header_of sn) p s defs = Ok s' /\
    map fst (sc_dtype s') = map fst (sc_dtype s) ++ map cd_name (filter (has_column sn p) defs) /\
    map fst (sc_offsets s') = rev (map cd_name defs) ++ map fst (sc_offsets s) /\
    incl (sc_dtype s) (sc_dtype s') /\ incl (sc_offsets s) (sc_offsets s') /\
    (forall d b, In (d, b) (combine defs blocks) -> has_column sn p d = true ->
       exists off dt, In (cd_name d, dt) (sc_dtype s') /\ In (cd_name d, off) (sc_offsets s') /\ column_at sn p file d b off dt).
Proof.
  intros Hn Hm Hms defs blocks HF. induction HF as [|d b defs blocks Hb HF IH]; intros HS pre post s Hf Hp.
  - exists s. cbn. rewrite app_nil_r. repeat split; auto using incl_refl. intros ? ? [].
  - inversion HS as [|? ? ? ? Hs1 Hs2]; subst. clear HS. cbn [combine map List.concat fst snd] in *.
    set (file := pre ++ (block_bytes sn d b ++ _) ++ post) in *.
    destruct (scan_column_ok sn p d b file pre (concat (map (fun db => block_bytes sn (fst db) (snd db)) (combine defs blocks)) ++ post) s Hn Hm Hms Hb Hs1) as (off & dt & E & A1 & A2 & A3).
    { unfold file. rewrite <- !app_assoc. reflexivity. }
    { exact Hp. }
    cbn [scan_columns]. rewrite E. cbn [rbind].
    match goal with |- context [scan_columns file _ p ?s0 defs] => set (s1 := s0) end.
    destruct (IH Hs2 (pre ++ block_bytes sn d b) post s1) as (s' & E' & B1 & B2 & B3 & B4 & B5).
    { unfold file. rewrite <- !app_assoc. reflexivity. }
    { reflexivity. }
    exists s'. split; [exact E'|]. split; [|split; [|split; [|split]]].
    + rewrite B1. unfold s1. cbn [sc_dtype filter]. destruct (has_column sn p d); [rewrite map_app, <- app_assoc|]; reflexivity.
    + rewrite B2. unfold s1. cbn [sc_offsets map rev fst]. rewrite <- app_assoc. reflexivity.
    + intros x Hx. apply B3. unfold s1. cbn [sc_dtype]. destruct (has_column sn p d); [apply in_or_app; left|]; exact Hx.
    + intros x Hx. apply B4. unfold s1. cbn [sc_offsets]. right; exact Hx.
    + intros d' b' [Heq|Hin] Hc.
      * injection Heq as <- <-. exists off, dt. split; [|split].
        -- apply B3. unfold s1. cbn [sc_dtype]. rewrite Hc. apply in_or_app; right; left; reflexivity.
        -- apply B4. unfold s1. left; reflexivity.
        -- split; [exact A1|]. split; [exact A2|exact A3].
      * apply B5; assumption.
Qed.
Lemma lookup_in {A} (l : list (string * A)) k v : NoDup (map fst l) -> In (k, v) l -> lookup l k = Some v.
Proof.
  induction l as [|[x w] l IH]; intros Hn Hi; [contradiction|]. cbn in *. inversion Hn as [|? ? Hx Hn']; subst.
  destruct (String.eqb_spec x k) as [->|Hne].
  - destruct Hi as [Hi|Hi]; [injection Hi as ->; reflexivity|]. exfalso. apply Hx. apply (in_map fst) in Hi. exact Hi.
  - destruct Hi as [Hi|Hi]; [injection Hi as -> ->; congruence|]. auto.
Qed.
Lemma lookup_none {A} (l : list (string * A)) k : ~ In k (map fst l) -> lookup l k = None.
Proof.
  induction l as [|[x w] l IH]; intros H; [reflexivity|]. cbn in *. destruct (String.eqb_spec x k); [exfalso; auto|auto].
Qed.
Lemma duplicates_nodup l : NoDup l -> duplicates l = false.
Proof.
  induction 1 as [|x l Hx _ IH]; [reflexivity|]. cbn. rewrite IH, orb_false_r. apply not_true_is_false. intros K.
  apply existsb_exists in K. destruct K as (y & Hy & E). apply String.eqb_eq in E. subst. auto.
Qed.
Lemma NoDup_map_filter {A} (f : A -> bool) (g : A -> string) l : NoDup (map g l) -> NoDup (map g (filter f l)).
Proof.
  induction l as [|x l IH]; cbn; [auto|]. intros H. inversion H as [|? ? Hx Hn]; subst. destruct (f x); [|auto]. cbn. constructor; [|auto].
  intros K. apply Hx. apply in_map_iff in K. destruct K as (y & <- & Hy). apply filter_In in Hy. apply in_map. tauto.
Qed.
Lemma rall_map {A B} (f : A -> res B) (g : A -> B) l : (forall x, In x l -> f x = Ok (g x)) -> rall (map f l) = Ok (map g l).
Proof. intros H. rewrite <- rall_ok. f_equal. rewrite map_map. apply map_ext_in. exact H. Qed.
Lemma rall_map_ex {A B} (f : A -> res B) (P : A -> B -> Prop) l : (forall x, In x l -> exists y, f x = Ok y /\ P x y) -> exists out, rall (map f l) = Ok out /\ Forall2 P l out.
Proof.
  induction l as [|x l IH]; intros H; [exists []; split; [reflexivity|constructor]|].
  destruct (H x (or_introl eq_refl)) as (y & E & Py). destruct (IH ltac:(intros z Hz; apply H; right; exact Hz)) as (out & E' & F).
  exists (y :: out). split; [|constructor; assumption]. cbn [map rall]. rewrite E. cbn [rbind]. rewrite E'. reflexivity.
Qed.
Lemma in_combine_of {A B} (R : A -> B -> Prop) l l' x : Forall2 R l l' -> In x l -> exists y, In (x, y) (combine l l') /\ R x y.
Proof.
  induction 1 as [|a b l l' Hab _ IH]; intros []; [subst; exists b; split; [left; reflexivity|exact Hab]|].
  destruct (IH H) as (y & Hy & Ry). exists y. split; [right; exact Hy|exact Ry].
Qed.
Lemma in_combine_rel {A B} (R : A -> B -> Prop) l l' x y : Forall2 R l l' -> In (x, y) (combine l l') -> R x y.
Proof. induction 1 as [|a b l l' Hab _ IH]; intros []; [congruence|auto]. Qed.

(* ---- a written snapshot is read back ---- *)
Lemma gadget_ok sn defs p : snapshot_ok sn defs -> small_blocks sn defs -> (p < 6)%nat ->
  exists g, Gadget1File (snapshot_bytes sn defs) defs p = Ok g /\ g_size g = nth p (sn_npart sn) 0 /\
    map fst (g_dtype g) = map cd_name (filter (has_column sn p) defs) /\ g_mass g = nth p (sn_mass sn) [] /\
    NoDup (map fst (g_dtype g)) /\ NoDup (map fst (g_offsets g)) /\
    (forall d b, In (d, b) (combine defs (sn_blocks sn)) -> has_column sn p d = true ->
       exists off dt, In (cd_name d, dt) (g_dtype g) /\ In (cd_name d, off) (g_offsets g) /\ column_at sn p (snapshot_bytes sn defs) d b off dt).
Proof.
  intros Hsn Hsm Hp. pose proof (zlen_start _ _ Hsn) as Ls. pose proof Hsn as (_ & Hn & _ & Hm & Hms & _ & HF & Hnd).
  unfold Gadget1File. destruct (Nat.leb_spec p 5); [|lia]. cbn [negb].
  unfold snapshot_bytes at 1. rewrite (read_header_ok sn defs _ Hsn). cbn [rbind h_names]. fold (header_of sn).
  destruct (scan_columns_ok sn p (snapshot_bytes sn defs) Hn Hm Hms defs (sn_blocks sn) HF Hsm (start_bytes sn) (sn_tail sn)
              {| sc_ptr := if sn_named sn then 256 + 4 + 4 + 4 + 8 + 4 else 256 + 4 + 4; sc_offsets := []; sc_dtype := [] |}) as (s' & E & B1 & B2 & _ & _ & B5).
  { reflexivity. }
  { cbn [sc_ptr]. rewrite Ls. reflexivity. }
  rewrite E. cbn [rbind]. cbn [sc_dtype sc_offsets map app] in B1, B2. rewrite app_nil_r in B2.
  assert (N1 : NoDup (map fst (sc_dtype s'))) by (rewrite B1; apply NoDup_map_filter; exact Hnd).
  assert (N2 : NoDup (map fst (sc_offsets s'))) by (rewrite B2; apply NoDup_rev; exact Hnd).
  rewrite (duplicates_nodup _ N1). eexists. split; [reflexivity|]. cbn. repeat split; auto.
Qed.
Lemma gadget_read_ok sn defs p g columns start stop step : snapshot_ok sn defs -> small_blocks sn defs -> (p < 6)%nat ->
  Gadget1File (snapshot_bytes sn defs) defs p = Ok g -> NoDup columns -> incl columns (map fst (g_dtype g)) ->
  0 <= start <= stop -> stop <= g_size g -> 1 <= step ->
  exists out, gadget_read (snapshot_bytes sn defs) g columns start stop step = Ok out /\
    Forall2 (fun c cells => exists d b, In (d, b) (combine defs (sn_blocks sn)) /\ cd_name d = c /\ column_rows sn p d b (py_range start stop step) cells) columns out.
Proof.
  intros Hsn Hsm Hp Hg Hnd Hincl Hs Hle Hst.
  destruct (gadget_ok sn defs p Hsn Hsm Hp) as (g' & Hg' & G1 & G2 & G3 & N1 & N2 & G4). assert (g' = g) as -> by congruence. clear Hg'.
  pose proof Hsn as (_ & Hn & _ & Hm & Hms & _ & HF & _).
  unfold gadget_read.
  destruct (Z.ltb_spec (g_size g) stop); [lia|]. destruct (Z.ltb_spec (g_size g) start); [lia|]. destruct (Z.ltb_spec start 0); [lia|]. destruct (Z.ltb_spec stop 0); [lia|]. cbn [orb].
  assert (Hcol : forall c, In c columns -> exists d b off dt, In (d, b) (combine defs (sn_blocks sn)) /\ cd_name d = c /\ has_column sn p d = true /\
            lookup (g_dtype g) c = Some dt /\ lookup (g_offsets g) c = Some off /\ column_at sn p (snapshot_bytes sn defs) d b off dt).
  { intros c Hc. apply Hincl in Hc. rewrite G2 in Hc. apply in_map_iff in Hc. destruct Hc as (d & Ed & Hd). apply filter_In in Hd. destruct Hd as [Hd Hh].
    destruct (in_combine_of _ _ _ _ HF Hd) as (b & Hb & _). destruct (G4 d b Hb Hh) as (off & dt & K1 & K2 & K3).
    exists d, b, off, dt. rewrite <- Ed. repeat split; auto using lookup_in; apply K3. }
  destruct (rall_map_ex (fun c => match lookup (g_dtype g) c with Some d => Ok d | None => Err KeyError end) (fun _ _ => True) columns) as (dts & -> & _).
  { intros c Hc. destruct (Hcol c Hc) as (d & b & off & dt & _ & _ & _ & -> & _). eauto. }
  cbn [rbind]. rewrite get_slice_size_ok by lia. cbn [rbind]. rewrite (duplicates_nodup _ Hnd).
  pose proof (range_len_nonneg start stop step). destruct (Z.ltb_spec (range_len start stop step) 0); [lia|].
  apply rall_map_ex. intros c Hc. destruct (Hcol c Hc) as (d & b & off & dt & Hin & Hname & Hh & -> & -> & Hat).
  assert (Hz : zero8 (g_mass g) = zero_mass (nth p (sn_mass sn) [])).
  { rewrite G3. apply zero8_spec. rewrite Forall_forall in Hms. apply Hms. apply nth_In. lia. }
  rewrite Hz. unfold column_rows.
  destruct (String.eqb c "Mass" && negb (zero_mass (nth p (sn_mass sn) []))) eqn:Em.
  - eexists. split; [reflexivity|]. exists d, b. split; [exact Hin|]. split; [exact Hname|]. rewrite Hname, Em, G3.
    f_equal. pose proof (py_range_length start stop step) as L. unfold zlen in L. lia.
  - assert (Hin2 : In p (stored_types sn d)).
    { unfold has_column in Hh. rewrite Hname in Hh. apply orb_true_iff in Hh. destruct Hh as [Hh|Hh].
      - rewrite Hh in Em. cbn [andb] in Em. apply negb_false_iff in Em.
        unfold stored_types. rewrite Hname, Hh. destruct (cd_types d); [apply in_seq; lia| |]; apply filter_In; (split; [apply in_seq; lia|exact Em]).
      - apply existsb_exists in Hh. destruct Hh as (i & Hi & E). apply Nat.eqb_eq in E. subst i. exact Hi. }
    destruct Hat as ((_ & _ & Hk) & _ & Hloc).
    pose proof (in_combine_rel _ _ _ _ _ HF Hin) as (_ & _ & _ & _ & _ & Hit). destruct (Hit p Hin2) as (_ & Hlen & _).
    rewrite (located_read _ _ _ _ start stop step (Hloc Hin2)) by lia. cbn [rbind].
    eexists. split; [reflexivity|]. exists d, b. split; [exact Hin|]. split; [exact Hname|]. rewrite Hname, Em.
    eexists. split; [reflexivity|]. apply rows_at_select. apply range_in_range; lia.
Qed.
Lemma gadget_read_range file g columns start stop step : (start < 0 \/ stop < 0 \/ g_size g < start \/ g_size g < stop) -> gadget_read file g columns start stop step = Err IndexError.
Proof.
  intros H. unfold gadget_read. destruct (Z.ltb_spec (g_size g) stop); [reflexivity|]. destruct (Z.ltb_spec (g_size g) start); [reflexivity|]. destruct (Z.ltb_spec start 0); [reflexivity|]. destruct (Z.ltb_spec stop 0); [reflexivity|]. lia.
Qed.
(* ---- blocks of 2 to 4 GB ---- *)
Lemma gadget_big sn defs d b blocks p : snapshot_ok sn (d :: defs) -> sn_blocks sn = b :: blocks -> (p < 6)%nat ->
  2 ^ 31 <= zlen (stored_items sn d b) * bl_width b < 2 ^ 32 - 300 ->
  Gadget1File (snapshot_bytes sn (d :: defs)) (d :: defs) p = Err OSError.
Proof.
  intros Hsn Hbl Hp Hbig. pose proof (zlen_start _ _ Hsn) as Ls. pose proof Hsn as (_ & Hn & _ & Hm & Hms & _ & HF & _).
  rewrite Hbl in HF. inversion HF as [|? ? ? ? Hb HF']; subst. pose proof Hb as (Hnm & Hi & _ & Hty & Hnd & Hit).
  pose proof (stored_widths _ _ _ Hb) as Hws. pose proof (wf_concat_len _ _ _ eq_refl Hws) as Lc. set (n := zlen (concat (stored_items sn d b))) in *.
  unfold Gadget1File. destruct (Nat.leb_spec p 5); [|lia]. cbn [negb].
  unfold snapshot_bytes at 1. rewrite (read_header_ok sn (d :: defs) _ Hsn). cbn [rbind h_names]. fold (header_of sn).
  cbn [scan_columns]. unfold scan_column. rewrite types_of_ok by assumption. cbn [rbind].
  destruct (offset_in_ok (sn_npart sn) (bl_items b) p (stored_types sn d)) with (N := 0) (r0 := 0) as (r & E & _ & _).
  { intros i Hi'. destruct (Hit i Hi') as (A & B & _). split; [lia|exact B]. }
  cbn [h_npart header_of h_names]. rewrite E. cbn [rbind]. rewrite Z.add_0_l. fold (stored_items sn d b).
  destruct (Z.eqb_spec (zlen (stored_items sn d b)) 0) as [Ez|Ez]; [rewrite Ez in Hbig; lia|]. cbn [sc_ptr].
  set (pre' := start_bytes sn ++ (if sn_named sn then frame (bl_name b) else [])).
  assert (Hptr : (if sn_named sn then (if sn_named sn then 256 + 4 + 4 + 4 + 8 + 4 else 256 + 4 + 4) + 4 + 8 + 4 else (if sn_named sn then 256 + 4 + 4 + 4 + 8 + 4 else 256 + 4 + 4)) = zlen pre').
  { unfold pre'. rewrite zlen_app, Ls. destruct (sn_named sn); [rewrite zlen_frame; lia|unfold zlen; cbn; lia]. }
  rewrite Hptr.
  assert (Hbb : block_bytes sn d b = (if sn_named sn then frame (bl_name b) else []) ++ frame (concat (stored_items sn d b)))
    by (unfold block_bytes; destruct (stored_items sn d b); [cbn in Ez; congruence|reflexivity]).
  assert (F : exists post, snapshot_bytes sn (d :: defs) = pre' ++ le4 n ++ post).
  { unfold snapshot_bytes. rewrite Hbl. cbn [combine map List.concat fst snd]. rewrite Hbb. unfold frame at 2. fold n. unfold pre'. eexists. rewrite <- !app_assoc. reflexivity. }
  destruct F as [post F]. rewrite F at 1. rewrite read_i4_at, i4_le4_high by lia. cbn [rbind].
  assert (Hneg : zlen pre' + 4 + (n - 2 ^ 32) < 0) by (rewrite <- Hptr; destruct (sn_named sn); lia).
  unfold read_i4. destruct (Z.ltb_spec (zlen pre' + 4 + (n - 2 ^ 32)) 0); [|lia]. reflexivity.
Qed.
