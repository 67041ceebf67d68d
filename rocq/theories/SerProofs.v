(* Proofs about results on disk. *)
From Verif Require Import Base BaseProofs Num SerModel SerSpec.
From Coq Require Import String Lia.
Local Open Scope nat_scope.
Local Notation length := List.length.

Lemma nth_combine_tl (l : list Qc) : forall i, nth_error (combine l (tl l)) i = match nth_error l i, nth_error l (S i) with Some a, Some b => Some (a, b) | _, _ => None end.
Proof.
  intros i. assert (G : forall (l m : list Qc) i, nth_error (combine l m) i = match nth_error l i, nth_error m i with Some a, Some b => Some (a, b) | _, _ => None end).
  { clear. induction l as [|x l IH]; intros [|y m] [|i]; cbn [combine nth_error]; try reflexivity; [destruct (nth_error l i); reflexivity|apply IH]. }
  rewrite G. destruct l as [|x l]; [destruct i; reflexivity|]. cbn [tl]. change (nth_error (x :: l) (S i)) with (nth_error l i). reflexivity.
Qed.
Lemma half_double (a b x : Qc) : (x + x = a + b)%Qc -> x = (Q2Qc (1 # 2) * (b + a))%Qc.
Proof.
  intros H. assert (E : (b + a = x + x)%Qc) by (rewrite H; ring). rewrite E. replace (x + x)%Qc with ((1 + 1) * x)%Qc by ring. rewrite Qcmult_assoc.
  replace (Q2Qc (1 # 2) * (1 + 1))%Qc with 1%Qc by (apply Qc_is_canon; reflexivity). ring.
Qed.
Lemma centers_mid e c : midpoints e c -> centers (Arr e) = Ok c.
Proof.
  intros [L H]. cbn [centers]. f_equal. apply nth_error_ext. intros i. rewrite nth_error_map', nth_combine_tl.
  destruct (nth_error c i) as [x|] eqn:C.
  - assert (Hi : i < length c) by (apply nth_error_Some; congruence).
    destruct (nth_error e i) as [a|] eqn:EA; [|apply nth_error_None in EA; lia]. destruct (nth_error e (S i)) as [b|] eqn:EB; [|apply nth_error_None in EB; lia].
    cbn [option_map fst snd]. f_equal. symmetry. apply half_double. exact (H i a b x EA EB C).
  - apply nth_error_None in C. destruct (nth_error e i); [|reflexivity]. destruct (nth_error e (S i)) eqn:EB; [|reflexivity]. assert (S i < length e) by (apply nth_error_Some; congruence). lia.
Qed.
Lemma mid_centers e c : e <> [] -> centers (Arr e) = Ok c -> midpoints e c.
Proof.
  intros NE H. cbn [centers] in H. assert (H' : map (fun p => (Q2Qc (1 # 2) * (snd p + fst p))%Qc) (combine e (tl e)) = c) by congruence. subst c. split.
  - rewrite map_length, combine_length. destruct e as [|x e]; [congruence|]. cbn [tl length]. lia.
  - intros i a b x EA EB. rewrite nth_error_map', nth_combine_tl, EA, EB. cbn [option_map fst snd]. intros E. assert (E' : (Q2Qc (1 # 2) * (b + a))%Qc = x) by congruence. subst x.
    rewrite <- Qcmult_plus_distr_l. replace (Q2Qc (1 # 2) + Q2Qc (1 # 2))%Qc with 1%Qc by (apply Qc_is_canon; reflexivity). ring.
Qed.

Section Disk.
Context {V A : Type}.
Implicit Types (s t : stat V A) (o st : dict V A).

Lemma fits_iff shape edges : sizes_fit shape edges = true <-> map S shape = map (fun e => length (items e)) edges.
Proof. unfold sizes_fit. destruct (list_eq_dec Nat.eq_dec _ _); split; congruence. Qed.
(* rebuilding a binned statistic gives it back *)
Lemma rebuild dims edges s : binned dims edges s -> new_stat dims (map Arr edges) (s_shape s) (s_cols s) [] (no_coords dims) [] = Ok s.
Proof.
  intros (E1 & E2 & E3 & E4 & E5 & E6 & E7). unfold new_stat. rewrite map_length, E2, Nat.eqb_refl. cbn [negb].
  assert (F : sizes_fit (s_shape s) (map Arr edges) = true).
  { apply fits_iff. rewrite E5. rewrite !map_map. cbn [items]. clear - E4. induction E4 as [|e c le lc [H _] F IH]; [reflexivity|]. cbn [map]. rewrite IH, H. reflexivity. }
  rewrite F. cbn [negb].
  assert (R : rall (map pick_coord (combine (map Arr edges) (no_coords dims))) = Ok (s_coords s)).
  { clear - E2 E4. unfold no_coords. revert dims E2. induction E4 as [|e c le lc M F IH]; intros [|d dims] L; try discriminate L; [reflexivity|]. cbn [map combine rall]. unfold pick_coord at 1. cbn [snd fst].
    rewrite (centers_mid e c M). cbn [rbind]. rewrite (IH dims) by (cbn [length] in L; lia). reflexivity. }
  rewrite R. cbn [rbind]. f_equal. destruct s as [d e c sh co su at_]. cbn in *. subst. reflexivity.
Qed.
Lemma load_rank (setstate : dict V A -> res (dict V A)) file n r : r < n -> load setstate file n r = let! o := setstate file in Ok (o ++ [("comm"%string, VOther)]).
Proof.
  intros H. unfold load. rewrite nth_error_map', nth_error_seq. destruct (Nat.ltb_spec r n); [|lia]. cbn [option_map]. destruct n; [lia|]. reflexivity.
Qed.

Lemma three_saved o e p attrs n r :
  getattr o "poles" = Ok (VBin p) -> getattr o "attrs" = Ok (VAttrs attrs) -> dget attrs "edges" = Some (MSeq (Arr e)) -> binned ["r1"; "r2"]%string [e; e] p -> r < n ->
  exists file o', three_getstate o = Ok file /\ load three_setstate file n r = Ok o' /\ getattr o' "poles" = Ok (VBin p) /\ getattr o' "attrs" = Ok (VAttrs attrs).
Proof.
  intros HP HA HE HB HR. unfold three_getstate. rewrite HP. cbn [rbind as_bin]. rewrite HA. cbn [rbind]. eexists. eexists. split; [reflexivity|].
  rewrite load_rank by exact HR. unfold three_setstate. change (getattr [("poles"%string, VData (s_shape p) (s_cols p)); ("attrs"%string, VAttrs attrs)] "attrs") with (Ok (VAttrs (V := V) attrs)). cbn [rbind as_attrs].
  unfold key. rewrite HE. cbn [rbind]. change (getattr [("poles"%string, VData (s_shape p) (s_cols p)); ("attrs"%string, VAttrs attrs)] "poles") with (Ok (VData (A := A) (s_shape p) (s_cols p))). cbn [rbind].
  change [Arr e; Arr e] with (map Arr [e; e]). rewrite (rebuild _ _ _ HB). cbn [rbind]. split; [reflexivity|]. split; reflexivity.
Qed.
Lemma proj_saved o e p attrs n r :
  getattr o "power" = Ok (VBin p) -> getattr o "edges" = Ok (VSeq (Arr e)) -> getattr o "attrs" = Ok (VAttrs attrs) -> binned ["k"]%string [e] p -> r < n ->
  exists file o', proj_getstate o = Ok file /\ load proj_setstate file n r = Ok o' /\ getattr o' "power" = Ok (VBin p) /\ getattr o' "edges" = Ok (VSeq (Arr e)) /\ getattr o' "attrs" = Ok (VAttrs attrs).
Proof.
  intros HP HE HA HB HR. unfold proj_getstate. rewrite HE. cbn [rbind]. rewrite HP. cbn [rbind as_bin]. rewrite HA. cbn [rbind]. eexists. eexists. split; [reflexivity|].
  rewrite load_rank by exact HR. unfold proj_setstate. set (st := [("edges"%string, VSeq (Arr e)); ("power"%string, VData (s_shape p) (s_cols p)); ("attrs"%string, VAttrs attrs)]).
  change (getattr st "edges") with (Ok (VSeq (V := V) (A := A) (Arr e))). cbn [rbind]. change (getattr st "power") with (Ok (VData (A := A) (s_shape p) (s_cols p))). cbn [rbind].
  change [Arr e] with (map Arr [e]). rewrite (rebuild _ _ _ HB). cbn [rbind]. split; [reflexivity|]. split; [reflexivity|]. split; reflexivity.
Qed.
Lemma from_state_ok s : length (s_dims s) = length (s_edges s) -> length (s_coords s) = length (s_edges s) -> map S (s_shape s) = map (fun e => length (items e)) (s_edges s) ->
  exists t, from_state (stat_state s) = Ok t /\ same_content t s /\ s_sum t = [].
Proof.
  intros L1 L2 F. unfold from_state, stat_state, new_stat. cbn [t_dims t_edges t_coords t_shape t_cols t_attrs]. rewrite L1, Nat.eqb_refl. cbn [negb]. apply fits_iff in F. rewrite F. cbn [negb].
  assert (R : rall (map pick_coord (combine (s_edges s) (map Some (s_coords s)))) = Ok (s_coords s)).
  { clear - L2. revert L2. generalize (s_edges s) (s_coords s). induction l as [|e l IH]; intros [|c m] L; try discriminate L; [reflexivity|]. cbn [map combine rall]. unfold pick_coord at 1. cbn [snd rbind]. rewrite IH by (cbn [length] in L; lia). reflexivity. }
  rewrite R. cbn [rbind]. eexists. split; [reflexivity|]. split; [repeat split|reflexivity].
Qed.
Lemma conv_saved o p attrs n r :
  getattr o "poles" = Ok (VBin p) -> getattr o "attrs" = Ok (VAttrs attrs) ->
  length (s_dims p) = length (s_edges p) -> length (s_coords p) = length (s_edges p) -> map S (s_shape p) = map (fun e => length (items e)) (s_edges p) -> r < n ->
  exists file o' p', conv_getstate o = Ok file /\ conv_load "current" file n r = Ok o' /\ getattr o' "poles" = Ok (VBin p') /\ same_content p' p /\ s_sum p' = [] /\ getattr o' "attrs" = Ok (VAttrs attrs).
Proof.
  intros HP HA L1 L2 F HR. unfold conv_getstate. rewrite HP. cbn [rbind as_bin]. rewrite HA. cbn [rbind]. destruct (from_state_ok p L1 L2 F) as (t & E & S1 & S2).
  eexists. eexists. exists t. split; [reflexivity|]. unfold conv_load. rewrite load_rank by exact HR. cbn [String.eqb Ascii.eqb Bool.eqb]. unfold conv_setstate, key. cbn [dget find fst String.eqb Ascii.eqb Bool.eqb option_map snd rbind].
  rewrite E. cbn [rbind]. split; [reflexivity|]. split; [reflexivity|]. split; [exact S1|]. split; [exact S2|reflexivity].
Qed.
(* the wedges depend on the content only *)
Lemma pkmu_same (p p' : stat V A) mu (w : cols V) a : same_content p' p -> pkmu_result p' mu w a = pkmu_result p mu w a.
Proof. intros (E1 & E2 & E3 & E4 & E5 & E6). unfold pkmu_result. rewrite E2, E3, E4. reflexivity. Qed.
Lemma hist_saved e dV nbar attrs o n r : e <> [] -> hist_result (V := V) (A := A) (Arr e) dV nbar attrs = Ok o -> r < n ->
  exists c file o', midpoints e c /\ hist_getstate o = Ok file /\ load hist_setstate file n r = Ok o' /\
    getattr o' "bin_edges" = Ok (VSeq (Arr e)) /\ getattr o' "bin_centers" = Ok (VSeq (Arr c)) /\ getattr o' "dV" = Ok (VNums dV) /\ getattr o' "nbar" = Ok (VNums nbar) /\ getattr o' "attrs" = Ok (VAttrs attrs) /\
    (forall k, In k hist_keys -> getattr o' k = getattr o k) /\ getattr o' "source" = Err AttributeError.
Proof.
  intros NE H HR. unfold hist_result in H. destruct (centers (Arr e)) as [c|x] eqn:EC; [|discriminate H]. cbn [rbind] in H.
  assert (M := mid_centers e c NE EC). exists c. assert (HO : o = _) by (symmetry; exact (f_equal (fun x => match x with Ok y => y | Err _ => o end) H)). cbv beta iota in HO. subst o.
  eexists. eexists. split; [exact M|]. split; [reflexivity|]. split; [rewrite load_rank by exact HR; reflexivity|].
  split; [reflexivity|]. split; [reflexivity|]. split; [reflexivity|]. split; [reflexivity|]. split; [reflexivity|]. split; [|reflexivity].
  intros k K. unfold hist_keys in K. cbn [In] in K. repeat (destruct K as [<-|K]; [reflexivity|]). destruct K.
Qed.
Lemma repeated_nodup (l : list string) : repeated l = false <-> NoDup l.
Proof.
  induction l as [|x l IH]; cbn [repeated]; [split; [constructor|reflexivity]|]. rewrite Bool.orb_false_iff, IH. split.
  - intros [H1 H2]. constructor; [|exact H2]. intros I. assert (E : existsb (String.eqb x) l = true) by (apply existsb_exists; exists x; split; [exact I|apply String.eqb_refl]). congruence.
  - intros H. inversion_clear H. split; [|assumption]. apply Bool.not_true_iff_false. intros E. apply existsb_exists in E. destruct E as (y & Y & Q). apply String.eqb_eq in Q. subst y. contradiction.
Qed.
Lemma dget_combine {X} (names : list string) (vals : list X) : NoDup names -> forall i k v, nth_error names i = Some k -> nth_error vals i = Some v -> dget (combine names vals) k = Some v.
Proof.
  intros ND. revert vals. induction ND as [|x l N ND IH]; intros [|y vals] [|i] k v; cbn [nth_error]; try discriminate.
  - intros E F. assert (x = k) by congruence. assert (y = v) by congruence. subst. unfold dget. cbn [combine find fst]. rewrite String.eqb_refl. reflexivity.
  - intros E F. unfold dget. cbn [combine find fst]. destruct (String.eqb_spec x k) as [->|]; [exfalso; apply N; apply (nth_error_In l i E)|]. exact (IH vals i k v E F).
Qed.
Lemma three_computed (name : nat -> string) e poles (zeta : nat -> list V) : e <> [] -> NoDup (map name poles) ->
  exists p : stat V A, three_result name (Arr e) poles zeta = Ok p /\ binned ["r1"; "r2"]%string [e; e] p /\ map fst (s_cols p) = map name poles /\
    forall i l, nth_error poles i = Some l -> dget (s_cols p) (name l) = Some (zeta i).
Proof.
  intros NE ND. unfold three_result. rewrite (proj2 (repeated_nodup _) ND). cbn [items].
  destruct (centers (Arr e)) as [c|x] eqn:EC; [|discriminate EC]. assert (M := mid_centers e c NE EC). destruct M as [ML MM]. set (data := combine (map name poles) (map zeta (seq 0 (length poles)))).
  set (p := {| s_dims := ["r1"; "r2"]%string; s_edges := [Arr e; Arr e]; s_coords := [c; c]; s_shape := [length e - 1; length e - 1]; s_cols := data; s_sum := []; s_attrs := [] |} : stat V A).
  assert (B : binned ["r1"; "r2"]%string [e; e] p).
  { split; [reflexivity|]. split; [reflexivity|]. split; [reflexivity|]. split; [repeat constructor; assumption|]. split; [cbn [s_shape s_coords p map]; replace (length e - 1) with (length c) by lia; reflexivity|]. split; reflexivity. }
  exists p. split; [exact (rebuild _ _ p B)|]. split; [exact B|]. split.
  - cbn [s_cols p]. unfold data. assert (G : forall (l : list string) (m : list (list V)), length l = length m -> map fst (combine l m) = l) by (induction l as [|x l IH]; intros [|y m] L; try discriminate L; [reflexivity|]; cbn [combine map fst]; f_equal; apply IH; cbn [length] in L; lia).
    apply G. rewrite !map_length, seq_length. reflexivity.
  - intros i l E. cbn [s_cols p]. apply (dget_combine _ _ ND i); [rewrite nth_error_map', E; reflexivity|].
    rewrite nth_error_map', nth_error_seq. assert (i < length poles) by (apply nth_error_Some; congruence). destruct (Nat.ltb_spec i (length poles)); [reflexivity|lia].
Qed.
(* files of old versions *)
Lemma old_loaded e (c : cols V) mids attrs n r : midpoints e mids -> r < n ->
  let file := [("edges"%string, VSeq (Arr e)); ("poles"%string, VData [length mids] c); ("attrs"%string, VAttrs attrs)] : dict V A in
  exists o p, conv_load "pre000305" file n r = Ok o /\ getattr o "attrs" = Ok (VAttrs attrs) /\ getattr o "poles" = Ok (VBin p) /\
    s_dims p = ["k"%string] /\ s_edges p = [Arr e] /\ s_coords p = [mids] /\ s_cols p = c /\ s_sum p = ["modes"%string].
Proof.
  intros M HR file. set (q := {| s_dims := ["k"%string]; s_edges := [Arr e]; s_coords := [mids]; s_shape := [length mids]; s_cols := c; s_sum := []; s_attrs := [] |} : stat V A).
  assert (E : new_stat (A := A) ["k"%string] [Arr e] [length mids] c ["modes"%string] (no_coords ["k"%string]) [] = Ok {| s_dims := ["k"%string]; s_edges := [Arr e]; s_coords := [mids]; s_shape := [length mids]; s_cols := c; s_sum := ["modes"%string]; s_attrs := [] |}).
  { unfold new_stat. cbn [length Nat.eqb negb]. assert (F : sizes_fit [length mids] [Arr e] = true) by (apply fits_iff; cbn [map items]; rewrite (proj1 M); reflexivity). rewrite F. cbn [negb].
    unfold no_coords. cbn [map combine rall]. unfold pick_coord. cbn [snd fst]. rewrite (centers_mid e mids M). reflexivity. }
  eexists. eexists. unfold conv_load. rewrite load_rank by exact HR. cbn [String.eqb Ascii.eqb Bool.eqb]. unfold conv_setstate_old, key, file. cbn [dget find fst String.eqb Ascii.eqb Bool.eqb option_map snd rbind].
  rewrite E. cbn [rbind]. split; [reflexivity|]. split; [reflexivity|]. split; [reflexivity|]. repeat split.
Qed.
End Disk.

(* lists in place of arrays *)
Lemma three_list {V A} (name : nat -> string) e poles (zeta : nat -> list V) : e <> [] -> NoDup (map name poles) ->
  (exists p : stat V A, three_result name (Arr e) poles zeta = Ok p) /\ three_result (A := A) name (Lst e) poles zeta = Err TypeError.
Proof.
  intros NE ND. split; [destruct (three_computed (A := A) name e poles zeta NE ND) as (p & P & _); exists p; exact P|].
  unfold three_result. rewrite (proj2 (repeated_nodup _) ND). unfold new_stat. cbn [length Nat.eqb negb items].
  assert (F : sizes_fit [length e - 1; length e - 1] [Lst e; Lst e] = true) by (apply fits_iff; cbn [map items]; destruct e; [congruence|cbn [length]; repeat f_equal; lia]). rewrite F. reflexivity.
Qed.
Lemma hist_list {V A} e (dV nbar : list V) (attrs : attrs_t A) : (exists o, hist_result (Arr e) dV nbar attrs = Ok o) /\ hist_result (Lst e) dV nbar attrs = Err TypeError.
Proof. split; [eexists; reflexivity|reflexivity]. Qed.
Lemma pkmu_list {V A} (p : stat V A) k mu c (w : cols V) attrs : binned ["k"]%string [k] p -> mu <> [] -> midpoints mu c ->
  (exists q, pkmu_result p (Arr mu) w attrs = Ok q /\ s_dims q = ["k"; "mu"]%string /\ s_edges q = [Arr k; Arr mu] /\ s_coords q = s_coords p ++ [c] /\ s_cols q = w /\ s_attrs q = attrs) /\
  pkmu_result p (Lst mu) w attrs = Err TypeError.
Proof.
  intros (E1 & E2 & E3 & E4 & E5 & E6 & E7) NE M. unfold pkmu_result. rewrite E3, E5. inversion E4 as [|? kc ? rest MK R]. subst. inversion R. subst. cbn [map]. destruct MK as [MK _]. destruct M as [ML MM].
  split.
  - eexists. split.
    + unfold new_stat. cbn [length Nat.eqb negb items]. assert (F : sizes_fit [length kc; length mu - 1] [Arr k; Arr mu] = true) by (apply fits_iff; cbn [map items]; rewrite MK; replace (S (length mu - 1)) with (length mu) by lia; reflexivity).
      rewrite F. cbn [negb combine map rall]. unfold pick_coord. cbn [snd fst rbind]. rewrite (centers_mid mu c (conj ML MM)). cbn [rbind]. reflexivity.
    + repeat split.
  - unfold new_stat. cbn [length Nat.eqb negb items]. assert (F : sizes_fit [length kc; length mu - 1] [Arr k; Lst mu] = true) by (apply fits_iff; cbn [map items]; rewrite MK; replace (S (length mu - 1)) with (length mu) by lia; reflexivity).
    rewrite F. reflexivity.
Qed.
(* files of one version read as the other *)
Lemma old_as_current {V A} (e : seqv) sh (c : cols V) (attrs : attrs_t A) n r : r < n ->
  is_ok (conv_load "current" [("edges"%string, VSeq e); ("poles"%string, VData sh c); ("attrs"%string, VAttrs attrs)] n r) = false.
Proof. intros HR. unfold conv_load. rewrite load_rank by exact HR. reflexivity. Qed.
Lemma current_as_old {V A} (o file : dict V A) n r : conv_getstate o = Ok file -> r < n -> conv_load "pre000305" file n r = Err KeyError.
Proof.
  intros E HR. unfold conv_getstate in E. destruct (getattr o "poles") as [v|]; [|discriminate E]. cbn [rbind] in E. destruct (as_bin v); [|discriminate E]. cbn [rbind] in E. destruct (getattr o "attrs") as [b|]; [|discriminate E]. cbn [rbind] in E.
  assert (F : file = _) by (symmetry; exact (f_equal (fun x => match x with Ok y => y | Err _ => file end) E)). cbv beta iota in F. subst file.
  unfold conv_load. rewrite load_rank by exact HR. reflexivity.
Qed.
Lemma unknown_format {V A} format (file : dict V A) n r : format <> "current"%string -> format <> "pre000305"%string -> r < n ->
  exists o, conv_load format file n r = Ok o /\ getattr o "poles" = Err AttributeError /\ getattr o "attrs" = Err AttributeError.
Proof.
  intros H1 H2 HR. unfold conv_load. rewrite load_rank by exact HR. destruct (String.eqb_spec format "current"); [contradiction|]. destruct (String.eqb_spec format "pre000305"); [contradiction|]. eexists. split; [reflexivity|]. split; reflexivity.
Qed.
