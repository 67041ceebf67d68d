(* Properties C267-C273: the sources, the three-dimensional power, the shapes and the state of FFTPower
   and FFTCorr. *)
From Coq Require Import Reals List Bool String Ascii Lia Lra.
From Verif Require Import Base UniqModel UniqProofs UniqMain FpModel FpProofs.
Import ListNotations.
Local Open Scope R_scope.
Local Notation length := List.length.
Local Notation concat := List.concat.

(* C267: sources are cast as documented. Numbers of objects are below [next]. *)
Theorem C267_cast next s box nmesh m : cast_source next s box nmesh = Ok m <->
  s_kind s <> KOther /\ m_data m = s_data s /\ m_comm m = s_comm s /\ m_obj m = match s_kind s with KMesh => s_obj s | _ => next end /\
  (forall b, box = Some b -> m_box m = spread b) /\ (forall n, nmesh = Some n -> m_nmesh m = spread n) /\
  match s_kind s with
  | KCatalog => (box = None -> exists b, s_box s = Some b /\ m_box m = spread b) /\ (nmesh = None -> exists n, s_nmesh s = Some n /\ m_nmesh m = spread n)
  | _ => s_box s = Some (m_box m) /\ s_nmesh s = Some (m_nmesh m)
  end.
Proof. exact (cast_ok next s box nmesh m). Qed.
Theorem C267_refused next s box nmesh e : cast_source next s box nmesh = Err e -> (s_kind s <> KField /\ s_kind s <> KMesh \/ s_box s <> None /\ s_nmesh s <> None) ->
  e = if match s_kind s with KOther => true | _ => false end then TypeError else ValueError.
Proof. exact (cast_err next s box nmesh e). Qed.
Theorem C267_init next first second nmesh box f s : base_init next first second nmesh box = Ok (f, s) <->
  cast_source next first box nmesh = Ok f /\ match second with Some x => cast_source (S next) x box nmesh = Ok s | None => s = f end /\ m_comm s = m_comm f /\ m_box f = m_box s.
Proof. exact (init_ok next first second nmesh box f s). Qed.
(* The power: every mode is V c1 conj(c2), the mode 0 is 0. [compute] is the painted field of the data on a mesh. *)
Theorem C267_power next first second nmesh box f s (compute : nat -> list R -> list Z -> field) : base_init next first second nmesh box = Ok (f, s) ->
  (s_obj first < next)%nat -> (forall x, second = Some x -> (s_obj x < next)%nat /\ (s_obj x = s_obj first -> x = first)) ->
  let c1 := compute (m_data f) (m_box f) (m_nmesh f) in let c2 := compute (m_data s) (m_box s) (m_nmesh f) in
  map (map fst) (f_slabs c1) = map (map fst) (f_slabs c2) ->
  let p := compute_3d_power compute f s in
  (forall i j k a, at_mode (f_slabs c1) i j = Some (k, a) -> exists b, at_mode (f_slabs c2) i j = Some (k, b) /\
    at_mode (p_slabs p) i j = Some (k, if forallb (Z.eqb 0) k then (0, 0) else
      (prod (m_box f) * (fst a * fst b + snd a * snd b), prod (m_box f) * (snd a * fst b - fst a * snd b)))) /\
  (forall i j, at_mode (f_slabs c1) i j = None -> at_mode (p_slabs p) i j = None) /\
  (forall n, f_N c1 = Some n -> p_N1 p = n) /\ (forall n, f_N c2 = Some n -> p_N2 p = n) /\ (f_N c1 = None -> p_N1 p = 0) /\ (f_N c2 = None -> p_N2 p = 0) /\
  (one_object first second -> forall n, f_shot c1 = Some n -> p_shot p = n) /\ ((~ one_object first second \/ f_shot c1 = None) -> p_shot p = 0).
Proof.
  intros B L1 L2 c1 c2 LAY p. destruct (init_same next first second nmesh box f s B L1 L2) as [OB ID]. destruct (power_modes compute f s ID LAY) as (_ & M1 & M2). fold c1 c2 in M1, M2.
  assert (C2 : m_obj f = m_obj s -> c2 = c1) by (intros E; unfold c2, c1; rewrite (ID E); reflexivity).
  split; [|split; [exact M2|]].
  - intros i j k a H. destruct (M1 i j k a H) as (b & H1 & H2). exists b. split; [exact H1|]. unfold p. rewrite H2. assert (O : forallb (Z.eqb 0) k = at_origin k) by (unfold at_origin; clear; induction k as [|x k IH]; [reflexivity|]; cbn [forallb]; rewrite IH, (Z.eqb_sym x 0); reflexivity). rewrite O. reflexivity.
  - unfold p, compute_3d_power. cbv zeta. cbn [p_N1 p_N2 p_shot]. fold c1. fold c2.
    assert (N2 : (if (m_obj f =? m_obj s)%nat then c1 else c2) = c2) by (destruct (Nat.eqb_spec (m_obj f) (m_obj s)) as [E|]; [symmetry; apply C2, E|reflexivity]). rewrite N2.
    split; [intros n ->; reflexivity|]. split; [intros n ->; reflexivity|]. split; [intros ->; reflexivity|]. split; [intros ->; reflexivity|]. split.
    + intros O n E. apply OB in O. rewrite (proj2 (Nat.eqb_eq _ _) O), E. reflexivity.
    + intros H. destruct (Nat.eqb_spec (m_obj f) (m_obj s)) as [E|]; [|reflexivity]. destruct H as [H| ->]; [exfalso; apply H, OB, E|reflexivity].
Qed.
Print Assumptions C267_cast.
Print Assumptions C267_refused.
Print Assumptions C267_init.
Print Assumptions C267_power.
Definition ex_cat : src := {| s_obj := 3; s_kind := KCatalog; s_comm := 0; s_box := Some [2]; s_nmesh := None; s_data := 5 |}.
Definition ex_mesh (n : Z) : src := {| s_obj := 4; s_kind := KMesh; s_comm := 0; s_box := Some [2; 2; 2]; s_nmesh := Some [n; n; n]; s_data := 6 |}.
Example C267_ex_cast : cast_source 10 ex_cat None (Some [4]%Z) = Ok {| m_obj := 10; m_comm := 0; m_box := [2; 2; 2]; m_nmesh := [4; 4; 4]%Z; m_data := 5 |}.
Proof. apply C267_cast. cbn. repeat split; try discriminate; try (intros ? [= <-]; reflexivity). intros _. exists [2]. split; reflexivity. Qed.
Example C267_ex_refused : cast_source 10 ex_cat None None = Err ValueError /\ cast_source 10 (ex_mesh 3) None (Some [4]%Z) = Err ValueError.
Proof. split; reflexivity. Qed.
Definition ex_field (d : nat) : field := {| f_slabs := [[([0; 0]%Z, (1, 0)); ([0; 1]%Z, (2, 1))]; [([1; 0]%Z, (0, INR d)); ([1; 1]%Z, (3, 0))]]; f_N := Some 7; f_shot := Some (8 / 7) |}.
Example C267_ex : exists f s, base_init 10 ex_cat (Some (ex_mesh 4)) (Some [4]%Z) None = Ok (f, s) /\ (s_obj ex_cat < 10)%nat /\ map (map fst) (f_slabs (ex_field (m_data f))) = map (map fst) (f_slabs (ex_field (m_data s))).
Proof.
  exists {| m_obj := 10; m_comm := 0; m_box := [2; 2; 2]; m_nmesh := [4; 4; 4]%Z; m_data := 5 |}, {| m_obj := 4; m_comm := 0; m_box := [2; 2; 2]; m_nmesh := [4; 4; 4]%Z; m_data := 6 |}. split.
  - apply C267_init. split; [exact C267_ex_cast|]. split; [|split; reflexivity]. apply C267_cast. cbn. repeat split; try discriminate; intros ? [= <-]; reflexivity.
  - split; [cbn; lia|reflexivity].
Qed.

(* C268: the auto spectrum of a catalog given as both sources has no shot noise. *)
Theorem C268_shotnoise_refuted : exists cat box nmesh compute f s f' s', s_kind cat = KCatalog /\ base_init 10 cat None nmesh box = Ok (f, s) /\ base_init 10 cat (Some cat) nmesh box = Ok (f', s') /\
  p_slabs (compute_3d_power compute f s) = p_slabs (compute_3d_power compute f' s') /\ p_shot (compute_3d_power compute f s) = 8 / 7 /\ p_shot (compute_3d_power compute f' s') = 0.
Proof.
  set (M o := {| m_obj := o; m_comm := 0; m_box := [2; 2; 2]; m_nmesh := [4; 4; 4]%Z; m_data := 5 |}).
  assert (C : forall o, cast_source o ex_cat None (Some [4]%Z) = Ok (M o)) by (intros o; apply C267_cast; cbn; repeat split; try discriminate; try (intros ? [= <-]; reflexivity); intros _; exists [2]; split; reflexivity).
  exists ex_cat, None, (Some [4]%Z), (fun _ _ _ => ex_field 1), (M 10%nat), (M 10%nat), (M 10%nat), (M 11%nat). split; [reflexivity|]. split; [apply C267_init; split; [apply C|]; repeat split|]. split; [apply C267_init; split; [apply C|]; split; [apply C|]; repeat split|].
  split; [reflexivity|]. split; reflexivity.
Qed.
Print Assumptions C268_shotnoise_refuted.

(* C269: the statistics. [x], [y] are k and power or r and corr; [ell l] is the name of the multipole l.
   The cells are those of the result of project_to_basis, in every bin. *)
Lemma concat_nth {X} (w : nat) (l : list (list X)) : Forall (fun r => length r = w) l -> forall i j, (j < w)%nat -> nth_error (concat l) (i * w + j) = match nth_error l i with Some r => nth_error r j | None => None end.
Proof.
  induction 1 as [|r l Hr F IH]; intros i j Hj; [cbn; destruct i, j; cbn; try reflexivity; destruct (w + i * w)%nat; reflexivity|]. cbn [List.concat]. destruct i as [|i].
  - cbn [Nat.mul Nat.add nth_error]. rewrite nth_error_app1 by lia. reflexivity.
  - rewrite nth_error_app2 by lia. cbn [nth_error]. rewrite <- (IH i j Hj). f_equal. lia.
Qed.
Section Names.
Context (x y : string) (ell : Z -> string).
Definition names_ok : Prop := (forall a b, ell a = ell b -> a = b) /\ (forall a, ell a <> x /\ ell a <> "modes"%string) /\ x <> "modes"%string.
Definition multipoles (kedges : list R) (kcoords : list R) (poles : list Z) (prows : list pcell) (ps : option stat) : Prop :=
  (poles = [] -> ps = None) /\ (poles <> [] -> exists p, ps = Some p /\ t_dims p = [x] /\ t_edges p = [kedges] /\ t_coords p = [kcoords] /\ t_shape p = [pred (length kedges)] /\ t_names p = x :: map ell poles ++ ["modes"%string] /\
    forall i, nth_error (t_rows p) i = option_map (fun q => q_x q :: q_poles q ++ [q_n q]) (nth_error prows i)).
Definition bin_coords (kedges : list R) (kcoords : option (list R)) : list R := match kcoords with Some c => c | None => mid kedges end.
Theorem C269_wedges kedges muedges kcoords poles result prows : names_ok -> length kedges <> 2%nat -> length muedges <> 2%nat -> NoDup poles -> Forall (fun r => length r = pred (length muedges)) result ->
  exists power ps, make_results x y ell false kedges muedges kcoords poles result prows = Ok (power, ps) /\ t_dims power = [x; "mu"%string] /\ t_edges power = [kedges; muedges] /\ t_coords power = [bin_coords kedges kcoords; mid muedges] /\
    t_shape power = [pred (length kedges); pred (length muedges)] /\ t_names power = [x; "mu"%string; y; "modes"%string] /\
    (forall i j, (j < pred (length muedges))%nat -> nth_error (t_rows power) (i * pred (length muedges) + j) = match nth_error result i with Some r => option_map (fun c => [c_x c; c_mu c; c_y c; c_n c]) (nth_error r j) | None => None end) /\
    multipoles kedges (bin_coords kedges kcoords) poles prows ps.
Proof.
  intros (INJ & NE & NX) Lk Lm ND F. rewrite results_2d by assumption. rewrite (proj2 (Nat.eqb_neq _ _) Lk), (proj2 (Nat.eqb_neq _ _) Lm). cbn [andb orb]. rewrite (proj2 (ell_nodup x ell poles INJ NE NX) ND). eexists. eexists. split; [reflexivity|]. cbn [t_dims t_edges t_coords t_shape t_names t_rows].
  split; [reflexivity|]. split; [reflexivity|]. split; [reflexivity|]. split; [reflexivity|]. split; [reflexivity|]. split.
  - intros i j Hj. rewrite nth_error_map, (concat_nth _ _ F i j Hj). destruct (nth_error result i); reflexivity.
  - split; [intros ->; reflexivity|]. intros NP. destruct poles as [|p0 pr]; [congruence|]. eexists. split; [reflexivity|]. cbn [t_dims t_edges t_coords t_shape t_names t_rows]. repeat (split; [reflexivity|]). intros i. apply nth_error_map.
Qed.
Theorem C269_average kedges muedges kcoords poles result prows : names_ok -> length kedges <> 2%nat -> length muedges = 2%nat -> NoDup poles -> Forall (fun r => length r = 1%nat) result ->
  exists power ps, make_results x y ell true kedges muedges kcoords poles result prows = Ok (power, ps) /\ t_dims power = [x] /\ t_edges power = [kedges] /\ t_coords power = [bin_coords kedges kcoords] /\
    t_shape power = [pred (length kedges)] /\ t_names power = [x; y; "modes"%string] /\
    (forall i, nth_error (t_rows power) i = match nth_error result i with Some r => option_map (fun c => [c_x c; c_y c; c_n c]) (nth_error r 0) | None => None end) /\
    multipoles kedges (bin_coords kedges kcoords) poles prows ps.
Proof.
  intros (INJ & NE & NX) Lk Lm ND F. rewrite results_1d by assumption. rewrite (proj2 (Nat.eqb_neq _ _) Lk). rewrite (proj2 (ell_nodup x ell poles INJ NE NX) ND). eexists. eexists. split; [reflexivity|]. cbn [t_dims t_edges t_coords t_shape t_names t_rows].
  split; [reflexivity|]. split; [reflexivity|]. split; [reflexivity|]. split; [reflexivity|]. split; [reflexivity|]. split.
  - intros i. pose proof (concat_nth _ _ F i 0 ltac:(lia)) as K. replace (i * 1 + 0)%nat with i in K by lia. rewrite nth_error_map, K. destruct (nth_error result i); reflexivity.
  - split; [intros ->; reflexivity|]. intros NP. destruct poles as [|p0 pr]; [congruence|]. eexists. split; [reflexivity|]. cbn [t_dims t_edges t_coords t_shape t_names t_rows]. repeat (split; [reflexivity|]). intros i. apply nth_error_map.
Qed.
Theorem C269_repeated kedges muedges kcoords poles result prows one : names_ok -> length kedges <> 2%nat -> (one = true -> length muedges = 2%nat) -> (one = false -> length muedges <> 2%nat) -> ~ NoDup poles ->
  make_results x y ell one kedges muedges kcoords poles result prows = Err ValueError.
Proof.
  intros (INJ & NE & NX) Lk L1 L2 ND. assert (N : nodupb ([x] ++ map ell poles ++ ["modes"%string]) = false) by (destruct (nodupb _) eqn:E; [exfalso; apply ND; apply (ell_nodup x ell poles INJ NE NX), E|reflexivity]). destruct one.
  - rewrite results_1d by auto. rewrite (proj2 (Nat.eqb_neq _ _) Lk), N. reflexivity.
  - rewrite results_2d by auto. rewrite (proj2 (Nat.eqb_neq _ _) Lk), (proj2 (Nat.eqb_neq _ _) (L2 eq_refl)), N. reflexivity.
Qed.
End Names.
Print Assumptions C269_wedges.
Print Assumptions C269_average.
Print Assumptions C269_repeated.
Fixpoint una (n : nat) : string := match n with O => EmptyString | S n => String "1"%char (una n) end.
Definition ex_ell (l : Z) : string := match l with Zneg p => String "-"%char (una (Pos.to_nat p)) | _ => String "+"%char (una (Z.to_nat l)) end.
Lemma una_length n : String.length (una n) = n.
Proof. induction n as [|n IH]; [reflexivity|]. cbn [una String.length]. rewrite IH. reflexivity. Qed.
Example C269_ex_names : names_ok "k" ex_ell.
Proof.
  split; [|split; [|discriminate]].
  - assert (K : forall c n c' n', String c (una n) = String c' (una n') -> c = c' /\ n = n') by (intros c n c' n' E; injection E as E1 E2; split; [exact E1|]; rewrite <- (una_length n), <- (una_length n'), E2; reflexivity).
    intros a b E. destruct a as [|p|p], b as [|q|q]; unfold ex_ell in E; apply K in E as [E1 E2]; try discriminate; lia.
  - intros a. split; intros E; destruct a; discriminate.
Qed.
Definition ex_cell (n : R) : cell := {| c_x := (n, 0); c_mu := (0, 0); c_y := (n, 0); c_n := (n, 0) |}.
Example C269_ex : make_results "k" "power" ex_ell true [0; 1; 2] [-1; 1] None [] [[ex_cell 1]; [ex_cell 2]] [] =
  Ok ({| t_dims := ["k"%string]; t_edges := [[0; 1; 2]]; t_coords := [mid [0; 1; 2]]; t_names := ["k"; "power"; "modes"]%string; t_shape := [2%nat]; t_rows := [[(1, 0); (1, 0); (1, 0)]; [(2, 0); (2, 0); (2, 0)]]; t_sum := ["modes"%string] |}, None).
Proof. reflexivity. Qed.

(* C270: a single bin in k, or a single bin in mu of the 2d mode, is an error. *)
Theorem C270_single_bin_refuted : exists kedges kedges2 muedges muedges1 result, length kedges = 2%nat /\ length muedges1 = 2%nat /\ length muedges = 3%nat /\ length kedges2 = 3%nat /\
  make_results "k" "power" ex_ell true kedges muedges1 None [] result [] = Err IndexError /\
  make_results "k" "power" ex_ell false kedges muedges None [] result [] = Err ValueError /\
  make_results "k" "power" ex_ell false kedges2 muedges1 None [] result [] = Err ValueError.
Proof. exists [0; 1], [0; 1; 2], [-1; 0; 1], [-1; 1], [[ex_cell 1; ex_cell 2]]. repeat split. Qed.
Print Assumptions C270_single_bin_refuted.

(* C271: saved results are loaded, except for the fields to be summed (C70). *)
Definition same_stat (t u : stat) : Prop := t_dims t = t_dims u /\ t_edges t = t_edges u /\ t_coords t = t_coords u /\ t_names t = t_names u /\ t_shape t = t_shape u /\ t_rows t = t_rows u.
Theorem C271_saved x y ell one kedges muedges kcoords poles result prows power ps : make_results x y ell one kedges muedges kcoords poles result prows = Ok (power, ps) ->
  exists s, load_results power ps = Ok s /\ same_stat (v_power s) power /\ forall q, ps = Some q -> exists q', get_poles s = Ok (Some q') /\ same_stat q' q.
Proof.
  intros H. eexists. split; [exact (loaded x y ell one kedges muedges kcoords poles result prows power ps H)|]. split; [repeat split|]. intros q ->. exists (strip q). split; [reflexivity|repeat split].
Qed.
Print Assumptions C271_saved.
Example C271_ex : exists r, make_results "k" "power" ex_ell true [0; 1; 2] [-1; 1] None [0%Z] [[ex_cell 1]; [ex_cell 2]] [{| q_x := (1, 0); q_poles := [(1, 0)]; q_n := (1, 0) |}; {| q_x := (2, 0); q_poles := [(1, 0)]; q_n := (1, 0) |}] = Ok r.
Proof. eexists. reflexivity. Qed.

(* C272: without multipoles the attribute poles is None when computed, but missing when loaded. *)
Theorem C272_poles_refuted : exists power s, make_results "k" "power" ex_ell true [0; 1; 2] [-1; 1] None [] [[ex_cell 1]; [ex_cell 2]] [] = Ok (power, None) /\ load_results power None = Ok s /\ get_poles s = Err AttributeError.
Proof. eexists. eexists. split; [reflexivity|]. split; reflexivity. Qed.
Print Assumptions C272_poles_refuted.

(* C273: the bins in separation *)
Theorem C273_linear N L ranks dr r0 rmax : 0 < dr -> exists edges, r_edges N L ranks (Some dr) r0 (Some rmax) = Ok (edges, None) /\
  forall i, nth_error edges i = if Rlt_dec (r0 + INR i * dr) rmax then Some (r0 + INR i * dr) else None.
Proof. exact (corr_linear N L ranks dr r0 rmax). Qed.
Theorem C273_half N L ranks dr r0 : 0 < dr -> L <> [] -> exists edges, r_edges N L ranks (Some dr) r0 None = Ok (edges, None) /\ (forall e l, In e edges -> In l L -> e < l / 2 + dr / 2) /\
  forall i, r0 + INR i * dr < rmin L / 2 -> nth_error edges i = Some (r0 + INR i * dr).
Proof. exact (corr_half N L ranks dr r0). Qed.
Print Assumptions C273_linear.
Print Assumptions C273_half.
Example C273_ex : exists edges, r_edges [4; 4; 4] [8; 8; 10] [] (Some 1) 0 None = Ok (edges, None) /\ nth_error edges 3 = Some (0 + INR 3 * 1).
Proof.
  destruct (C273_half [4; 4; 4] [8; 8; 10] [] 1 0) as (e & E & _ & H); [lra|discriminate|]. exists e. split; [exact E|]. apply H. assert (M : rmin [8; 8; 10] = 8) by (unfold rmin; cbn [fold_left]; rewrite (Rmin_left 8 8) by lra; apply Rmin_left; lra). rewrite M. cbn [INR]. lra.
Qed.
