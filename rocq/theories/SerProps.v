(* Properties C322-C327: results on disk. *)
From Verif Require Import Base Num SerModel SerSpec SerProofs.
From Coq Require Import String.
Local Open Scope nat_scope.
Local Notation length := List.length.

Definition ex_e : list Qc := map (fun z => Q2Qc (inject_Z z)) [0; 2; 6]%Z.
Definition ex_c : list Qc := map (fun z => Q2Qc (inject_Z z)) [1; 4]%Z.
Lemma ex_mid : midpoints ex_e ex_c.
Proof.
  split; [reflexivity|]. unfold ex_e, ex_c. intros i a b x A B C. destruct i as [|[|[|i]]]; cbn [nth_error map] in A, B, C; try discriminate.
  - assert (a = Q2Qc (inject_Z 0)) by congruence. assert (b = Q2Qc (inject_Z 2)) by congruence. assert (x = Q2Qc (inject_Z 1)) by congruence. subst. apply Qc_is_canon; reflexivity.
  - assert (a = Q2Qc (inject_Z 2)) by congruence. assert (b = Q2Qc (inject_Z 6)) by congruence. assert (x = Q2Qc (inject_Z 4)) by congruence. subst. apply Qc_is_canon; reflexivity.
Qed.

(* ---- C322 ---- *)
Theorem C322_computed {V A} (name : nat -> string) e poles (zeta : nat -> list V) : e <> [] -> NoDup (map name poles) ->
  exists p : stat V A, three_result name (Arr e) poles zeta = Ok p /\ binned ["r1"; "r2"]%string [e; e] p /\ map fst (s_cols p) = map name poles /\
    forall i l, nth_error poles i = Some l -> dget (s_cols p) (name l) = Some (zeta i).
Proof. exact (three_computed name e poles zeta). Qed.
Print Assumptions C322_computed.
Theorem C322_three {V A} (o : dict V A) e p attrs n r :
  getattr o "poles" = Ok (VBin p) -> getattr o "attrs" = Ok (VAttrs attrs) -> dget attrs "edges" = Some (MSeq (Arr e)) -> binned ["r1"; "r2"]%string [e; e] p -> r < n ->
  exists file o', three_getstate o = Ok file /\ load three_setstate file n r = Ok o' /\ getattr o' "poles" = Ok (VBin p) /\ getattr o' "attrs" = Ok (VAttrs attrs).
Proof. exact (three_saved o e p attrs n r). Qed.
Print Assumptions C322_three.
Theorem C322_projected {V A} (o : dict V A) e p attrs n r :
  getattr o "power" = Ok (VBin p) -> getattr o "edges" = Ok (VSeq (Arr e)) -> getattr o "attrs" = Ok (VAttrs attrs) -> binned ["k"]%string [e] p -> r < n ->
  exists file o', proj_getstate o = Ok file /\ load proj_setstate file n r = Ok o' /\
    getattr o' "power" = Ok (VBin p) /\ getattr o' "edges" = Ok (VSeq (Arr e)) /\ getattr o' "attrs" = Ok (VAttrs attrs).
Proof. exact (proj_saved o e p attrs n r). Qed.
Print Assumptions C322_projected.
Theorem C322_convolved {V A} (o : dict V A) p attrs n r :
  getattr o "poles" = Ok (VBin p) -> getattr o "attrs" = Ok (VAttrs attrs) ->
  length (s_dims p) = length (s_edges p) -> length (s_coords p) = length (s_edges p) -> map S (s_shape p) = map (fun e => length (items e)) (s_edges p) -> r < n ->
  exists file o' p', conv_getstate o = Ok file /\ conv_load "current" file n r = Ok o' /\
    getattr o' "poles" = Ok (VBin p') /\ same_content p' p /\ s_sum p' = [] /\ getattr o' "attrs" = Ok (VAttrs attrs) /\
    forall mu w a, pkmu_result p' mu w a = pkmu_result p mu w a.
Proof.
  intros H1 H2 H3 H4 H5 H6. destruct (conv_saved o p attrs n r H1 H2 H3 H4 H5 H6) as (file & o' & p' & A1 & A2 & A3 & A4 & A5 & A6).
  exists file, o', p'. repeat (split; [assumption|]). intros mu w a. exact (pkmu_same p p' mu w a A4).
Qed.
Print Assumptions C322_convolved.
Theorem C322_histogram {V A} e (dV nbar : list V) (attrs : attrs_t A) o n r : e <> [] -> hist_result (Arr e) dV nbar attrs = Ok o -> r < n ->
  exists c file o', midpoints e c /\ hist_getstate o = Ok file /\ load hist_setstate file n r = Ok o' /\
    getattr o' "bin_edges" = Ok (VSeq (Arr e)) /\ getattr o' "bin_centers" = Ok (VSeq (Arr c)) /\ getattr o' "dV" = Ok (VNums dV) /\ getattr o' "nbar" = Ok (VNums nbar) /\ getattr o' "attrs" = Ok (VAttrs attrs) /\
    (forall k, In k hist_keys -> getattr o' k = getattr o k) /\ getattr o' "source" = Err AttributeError.
Proof. exact (hist_saved e dV nbar attrs o n r). Qed.
Print Assumptions C322_histogram.
(* two multipoles in two bins *)
Definition ex_name (l : nat) : string := if l =? 0 then "corr_0" else "corr_2".
Definition ex_stat : stat nat unit :=
  {| s_dims := ["r1"; "r2"]%string; s_edges := [Arr ex_e; Arr ex_e]; s_coords := [ex_c; ex_c]; s_shape := [2; 2];
     s_cols := [("corr_0"%string, [1; 2; 2; 5]); ("corr_2"%string, [3; 4; 4; 7])]; s_sum := []; s_attrs := [] |}.
Example C322_ex_computed : ex_e <> [] /\ NoDup (map ex_name [0; 2]).
Proof. split; [discriminate|]. repeat constructor; cbn; intuition discriminate. Qed.
Example C322_ex_three : let o : dict nat unit := [("poles"%string, VBin ex_stat); ("attrs"%string, VAttrs [("edges"%string, MSeq (Arr ex_e))])] in
  getattr o "poles" = Ok (VBin ex_stat) /\ binned ["r1"; "r2"]%string [ex_e; ex_e] ex_stat /\ 1 < 4.
Proof. split; [reflexivity|]. split; [|lia]. repeat split; try reflexivity. repeat constructor; exact ex_mid || apply ex_mid. Qed.
Definition ex_k : stat nat unit :=
  {| s_dims := ["k"]%string; s_edges := [Arr ex_e]; s_coords := [ex_c]; s_shape := [2]; s_cols := [("power"%string, [8; 9])]; s_sum := []; s_attrs := [] |}.
Example C322_ex_projected : let o : dict nat unit := [("power"%string, VBin ex_k); ("edges"%string, VSeq (Arr ex_e)); ("attrs"%string, VAttrs [])] in
  getattr o "edges" = Ok (VSeq (Arr ex_e)) /\ binned ["k"]%string [ex_e] ex_k.
Proof. split; [reflexivity|]. repeat split; try reflexivity. repeat constructor; apply ex_mid. Qed.
Example C322_ex_convolved : length (s_dims ex_k) = length (s_edges ex_k) /\ length (s_coords ex_k) = length (s_edges ex_k) /\ map S (s_shape ex_k) = map (fun e => length (items e)) (s_edges ex_k).
Proof. repeat split. Qed.
Example C322_ex_histogram : exists o, hist_result (A := unit) (Arr ex_e) [10; 20] [3; 4] [] = Ok o /\ getattr o "bin_centers" = Ok (VSeq (Arr ex_c)).
Proof. eexists. split; [reflexivity|]. cbn. repeat f_equal; apply Qc_is_canon; reflexivity. Qed.

(* ---- C323: the bins of the three-point function as a list ---- *)
Theorem C323_lists {V A} (name : nat -> string) e poles (zeta : nat -> list V) : e <> [] -> NoDup (map name poles) ->
  (exists p : stat V A, three_result name (Arr e) poles zeta = Ok p) /\ three_result (A := A) name (Lst e) poles zeta = Err TypeError.
Proof. exact (three_list name e poles zeta). Qed.
Print Assumptions C323_lists.
Theorem C323_three_refuted : exists (name : nat -> string) e poles (zeta : nat -> list nat),
  (exists p : stat nat unit, three_result name (Arr e) poles zeta = Ok p) /\ ~ exists p : stat nat unit, three_result name (Lst e) poles zeta = Ok p.
Proof.
  exists ex_name, ex_e, [0; 2], (fun i => [i]). destruct (C323_lists (A := unit) ex_name ex_e [0; 2] (fun i => [i])) as [H1 H2]; [discriminate|apply C322_ex_computed|]. split; [exact H1|]. intros [p P]. rewrite H2 in P. discriminate P.
Qed.
Print Assumptions C323_three_refuted.

(* ---- C324: the bins of the redshift histogram as a list ---- *)
Theorem C324_lists {V A} e (dV nbar : list V) (attrs : attrs_t A) : (exists o, hist_result (Arr e) dV nbar attrs = Ok o) /\ hist_result (Lst e) dV nbar attrs = Err TypeError.
Proof. exact (hist_list e dV nbar attrs). Qed.
Print Assumptions C324_lists.
Theorem C324_histogram_refuted : exists e (dV nbar : list nat) (attrs : attrs_t unit), (exists o, hist_result (Arr e) dV nbar attrs = Ok o) /\ ~ exists o, hist_result (Lst e) dV nbar attrs = Ok o.
Proof. exists ex_e, [1], [1], []. split; [apply C324_lists|]. intros [o O]. rewrite (proj2 (C324_lists _ _ _ _)) in O. discriminate O. Qed.
Print Assumptions C324_histogram_refuted.

(* ---- C325: the angular bins of to_pkmu as a list ---- *)
Theorem C325_wedges {V A} (p : stat V A) k mu c (w : cols V) attrs : binned ["k"]%string [k] p -> mu <> [] -> midpoints mu c ->
  (exists q, pkmu_result p (Arr mu) w attrs = Ok q /\ s_dims q = ["k"; "mu"]%string /\ s_edges q = [Arr k; Arr mu] /\ s_coords q = s_coords p ++ [c] /\ s_cols q = w /\ s_attrs q = attrs) /\
  pkmu_result p (Lst mu) w attrs = Err TypeError.
Proof. exact (pkmu_list p k mu c w attrs). Qed.
Print Assumptions C325_wedges.
Example C325_ex : binned ["k"]%string [ex_e] ex_k /\ ex_e <> [] /\ midpoints ex_e ex_c.
Proof. split; [exact (proj2 C322_ex_projected)|]. split; [discriminate|exact ex_mid]. Qed.
Theorem C325_pkmu_refuted : exists (p : stat nat unit) mu w attrs, (exists q, pkmu_result p (Arr mu) w attrs = Ok q) /\ ~ exists q, pkmu_result p (Lst mu) w attrs = Ok q.
Proof.
  exists ex_k, ex_e, [("power"%string, [1; 2; 3; 4])], []. destruct C325_ex as (H1 & H2 & H3). destruct (C325_wedges ex_k ex_e ex_e ex_c [("power"%string, [1; 2; 3; 4])] [] H1 H2 H3) as [(q & Q & _) E].
  split; [exists q; exact Q|]. intros [x X]. rewrite E in X. discriminate X.
Qed.
Print Assumptions C325_pkmu_refuted.

(* ---- C326: other names of formats ---- *)
Theorem C326_formats {V A} format (file : dict V A) n r : format <> "current"%string -> format <> "pre000305"%string -> r < n ->
  exists o, conv_load format file n r = Ok o /\ getattr o "poles" = Err AttributeError /\ getattr o "attrs" = Err AttributeError.
Proof. exact (unknown_format format file n r). Qed.
Print Assumptions C326_formats.
Theorem C326_format_refuted : exists format (o file : dict nat unit) o', conv_getstate o = Ok file /\ is_ok (conv_load "current" file 1 0) = true /\
  conv_load format file 1 0 = Ok o' /\ getattr o' "poles" <> getattr o "poles" /\ is_ok (getattr o' "poles") = false.
Proof.
  exists "pre0.3.5"%string, [("poles"%string, VBin ex_k); ("attrs"%string, VAttrs [])]. eexists. eexists. split; [reflexivity|]. split; [reflexivity|]. split; [reflexivity|]. split; [discriminate|reflexivity].
Qed.
Print Assumptions C326_format_refuted.

(* ---- C327: files of old versions ---- *)
Theorem C327_old {V A} e (c : cols V) mids (attrs : attrs_t A) n r : midpoints e mids -> r < n ->
  let file := [("edges"%string, VSeq (Arr e)); ("poles"%string, VData [length mids] c); ("attrs"%string, VAttrs attrs)] : dict V A in
  exists o p, conv_load "pre000305" file n r = Ok o /\ getattr o "attrs" = Ok (VAttrs attrs) /\ getattr o "poles" = Ok (VBin p) /\
    s_dims p = ["k"%string] /\ s_edges p = [Arr e] /\ s_coords p = [mids] /\ s_cols p = c /\ s_sum p = ["modes"%string].
Proof. exact (old_loaded e c mids attrs n r). Qed.
Print Assumptions C327_old.
Theorem C327_mixed {V A} (e : seqv) sh (c : cols V) (attrs : attrs_t A) (o file : dict V A) n r : r < n ->
  is_ok (conv_load "current" [("edges"%string, VSeq e); ("poles"%string, VData sh c); ("attrs"%string, VAttrs attrs)] n r) = false /\
  (conv_getstate o = Ok file -> conv_load "pre000305" file n r = Err KeyError).
Proof. intros HR. split; [exact (old_as_current e sh c attrs n r HR)|]. intros E. exact (current_as_old o file n r E HR). Qed.
Print Assumptions C327_mixed.
Example C327_ex : midpoints ex_e ex_c /\ exists file, conv_getstate ([("poles"%string, VBin ex_k); ("attrs"%string, VAttrs [])] : dict nat unit) = Ok file.
Proof. split; [exact ex_mid|eexists; reflexivity]. Qed.
