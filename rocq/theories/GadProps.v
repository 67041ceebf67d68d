From Verif Require Import Base BaseProofs IoModel IoSpec IoProofs GadModel GadSpec GadProofs GadScan GadMain GadOther.
From Coq Require Import String.
Local Open Scope Z_scope.
Local Notation length := List.length.
Local Notation concat := List.concat.

(* C224: a snapshot of either format is read back: size, columns, precisions and rows *)
Theorem C224_open : forall sn defs p, snapshot_ok sn defs -> small_blocks sn defs -> (p < 6)%nat ->
  exists g, Gadget1File (snapshot_bytes sn defs) defs p = Ok g /\ g_size g = nth p (sn_npart sn) 0 /\
    map fst (g_dtype g) = map cd_name (filter (has_column sn p) defs) /\
    (forall d b, In (d, b) (combine defs (sn_blocks sn)) -> has_column sn p d = true ->
       exists dt, In (cd_name d, dt) (g_dtype g) /\ dt_items dt = cd_items d /\
         dt_int dt = (match cd_base d with Auto => String.eqb (cd_name d) "ID" | Fixed i _ => i end) /\
         (stored_items sn d b <> [] -> dt_prec dt * dt_items dt = bl_width b)).
Proof.
  intros sn defs p H1 H2 H3. destruct (gadget_ok sn defs p H1 H2 H3) as (g & E & A & B & _ & _ & _ & C).
  exists g. split; [exact E|]. split; [exact A|]. split; [exact B|]. intros d b Hin Hh.
  destruct (C d b Hin Hh) as (off & dt & K1 & _ & (K2 & K3 & _) & K4 & _). exists dt. auto.
Qed.
Print Assumptions C224_open.
Theorem C224_read : forall sn defs p g columns start stop step, snapshot_ok sn defs -> small_blocks sn defs -> (p < 6)%nat ->
  Gadget1File (snapshot_bytes sn defs) defs p = Ok g -> NoDup columns -> incl columns (map cd_name (filter (has_column sn p) defs)) ->
  0 <= start <= stop -> stop <= nth p (sn_npart sn) 0 -> 1 <= step ->
  exists out, gadget_read (snapshot_bytes sn defs) g columns start stop step = Ok out /\
    Forall2 (fun c cells => exists d b, In (d, b) (combine defs (sn_blocks sn)) /\ cd_name d = c /\ column_rows sn p d b (py_range start stop step) cells) columns out.
Proof.
  intros sn defs p g columns start stop step H1 H2 H3 Hg Hn Hi Hs Hle Hst. destruct (gadget_ok sn defs p H1 H2 H3) as (g' & E & A & B & _).
  assert (g' = g) as -> by congruence. apply gadget_read_ok; try assumption; [rewrite B; exact Hi|rewrite A; exact Hle].
Qed.
Print Assumptions C224_read.
Theorem C224_bounds : forall file g columns start stop step, (start < 0 \/ stop < 0 \/ g_size g < start \/ g_size g < stop) ->
  gadget_read file g columns start stop step = Err IndexError.
Proof. exact gadget_read_range. Qed.
Print Assumptions C224_bounds.
(* a snapshot with two gas and three dark matter particles; the gas has a mass in the header; ids of 4 bytes *)
Definition ids (k : Z) (n : nat) : list (list Z) := map (fun i => [k; Z.of_nat i; 0; 0]) (seq 0 n).
Definition demo_defs : list coldef :=
  [ {| cd_name := "ID"; cd_base := Auto; cd_items := 1; cd_types := All |};
    {| cd_name := "Mass"; cd_base := Auto; cd_items := 1; cd_types := NoTypes |};
    {| cd_name := "Density"; cd_base := Auto; cd_items := 1; cd_types := Types [0%nat] |} ]%string.
Definition demo (named : bool) : snapshot :=
  {| sn_named := named; sn_name := [72;69;65;68;8;1;0;0]; sn_npart := [2;3;0;0;0;0];
     sn_mass := [[0;0;0;0;0;0;240;63]; [0;0;0;0;0;0;0;0]; [0;0;0;0;0;0;0;0]; [0;0;0;0;0;0;0;0]; [0;0;0;0;0;0;0;0]; [0;0;0;0;0;0;0;0]];
     sn_rest := repeat 0 184; sn_tail := [1; 2; 3];
     sn_blocks := [ {| bl_name := [73;68;32;32;0;0;0;0]; bl_width := 4; bl_items := fun i => match i with 0%nat => ids 5 2 | 1%nat => ids 6 3 | _ => [] end |};
                    {| bl_name := [77;65;83;83;0;0;0;0]; bl_width := 8; bl_items := fun i => match i with 1%nat => [[1;0;0;0;0;0;0;64];[2;0;0;0;0;0;0;64];[3;0;0;0;0;0;0;64]] | _ => [] end |};
                    {| bl_name := [82;72;79;32;0;0;0;0]; bl_width := 4; bl_items := fun i => match i with 0%nat => ids 9 2 | _ => [] end |} ] |}.
Ltac types_in H := cbn in H; repeat (destruct H as [H|H]; [subst; split; [lia|split; [reflexivity|repeat constructor]]|]); contradiction.
Ltac nodup := repeat (constructor; [cbn; lia|]); constructor.
Lemma demo_ok named : snapshot_ok (demo named) demo_defs /\ small_blocks (demo named) demo_defs.
Proof.
  split; [unfold snapshot_ok|].
  - split; [reflexivity|]. split; [reflexivity|]. split; [repeat constructor; lia|]. split; [reflexivity|]. split; [repeat constructor|]. split; [reflexivity|]. split.
    + constructor; [|constructor; [|constructor; [|constructor]]].
      * split; [reflexivity|]. split; [cbn; lia|]. split; [left; reflexivity|]. split; [discriminate|]. split; [cbn; nodup|]. intros i Hi. types_in Hi.
      * split; [reflexivity|]. split; [cbn; lia|]. split; [right; reflexivity|]. split; [reflexivity|]. split; [cbn; nodup|]. intros i Hi. types_in Hi.
      * split; [reflexivity|]. split; [cbn; lia|]. split; [left; reflexivity|]. split; [discriminate|]. split; [cbn; nodup|]. intros i Hi. types_in Hi.
    + repeat constructor; cbn; intuition discriminate.
  - repeat constructor; cbn; unfold zlen; cbn; lia.
Qed.
(* the hypotheses hold, and the rows 0:3:2 of the dark matter are read in both formats; the gas has the mass of the header *)
Example C224_dm : forall named, exists g, Gadget1File (snapshot_bytes (demo named) demo_defs) demo_defs 1 = Ok g /\ map fst (g_dtype g) = ["ID"; "Mass"]%string /\
  gadget_read (snapshot_bytes (demo named) demo_defs) g ["Mass"; "ID"]%string 0 3 2 = Ok [[Data [1;0;0;0;0;0;0;64]; Data [3;0;0;0;0;0;0;64]]; [Data [6;0;0;0]; Data [6;2;0;0]]].
Proof. intros []; eexists; split; [vm_compute; reflexivity|split; vm_compute; reflexivity|vm_compute; reflexivity|split; vm_compute; reflexivity]. Qed.
Example C224_gas : forall named, exists g, Gadget1File (snapshot_bytes (demo named) demo_defs) demo_defs 0 = Ok g /\ map fst (g_dtype g) = ["ID"; "Mass"; "Density"]%string /\
  gadget_read (snapshot_bytes (demo named) demo_defs) g ["Mass"; "Density"]%string 1 2 1 = Ok [[HeaderMass [0;0;0;0;0;0;240;63]]; [Data [9;1;0;0]]].
Proof. intros []; eexists; split; [vm_compute; reflexivity|split; vm_compute; reflexivity|vm_compute; reflexivity|split; vm_compute; reflexivity]. Qed.
Example C224_example : forall named, exists out g, gadget_read (snapshot_bytes (demo named) demo_defs) g ["ID"]%string 0 2 1 = Ok out /\
  Forall2 (fun c cells => exists d b, In (d, b) (combine demo_defs (sn_blocks (demo named))) /\ cd_name d = c /\ column_rows (demo named) 1 d b (py_range 0 2 1) cells) ["ID"]%string out.
Proof.
  intros named. destruct (demo_ok named) as [H1 H2]. destruct (C224_open (demo named) demo_defs 1 H1 H2 ltac:(lia)) as (g & E & _).
  destruct (C224_read (demo named) demo_defs 1 g ["ID"%string] 0 2 1 H1 H2 ltac:(lia) E) as (out & R); [repeat constructor; cbn; tauto|intros x [<-|[]]; cbn; auto|lia|cbn; lia|lia|]. exists out, g. exact R.
Qed.
Example C224_bounds_example : exists g, g_size g = 3 /\ gadget_read (snapshot_bytes (demo true) demo_defs) g ["ID"%string] 0 4 1 = Err IndexError.
Proof. exists {| g_size := 3; g_dtype := []; g_offsets := []; g_mass := [] |}. split; [reflexivity|]. apply C224_bounds. cbn; lia. Qed.

(* C225: blocks from 2 GB on, though the format allows them *)
Theorem C225_big : forall sn defs d b blocks p, snapshot_ok sn (d :: defs) -> sn_blocks sn = b :: blocks -> (p < 6)%nat ->
  2 ^ 31 <= zlen (stored_items sn d b) * bl_width b < 2 ^ 32 - 300 ->
  Gadget1File (snapshot_bytes sn (d :: defs)) (d :: defs) p = Err OSError.
Proof. exact gadget_big. Qed.
Print Assumptions C225_big.
Definition big_n : Z := 200000000.
Definition big_defs : list coldef := [ {| cd_name := "Position"; cd_base := Auto; cd_items := 3; cd_types := Types [1%nat] |} ]%string.
Definition big : snapshot :=
  {| sn_named := false; sn_name := [72;69;65;68;8;1;0;0]; sn_npart := [0;big_n;0;0;0;0];
     sn_mass := repeat [0;0;0;0;0;0;240;63] 6; sn_rest := repeat 0 184; sn_tail := [];
     sn_blocks := [ {| bl_name := [80;79;83;32;0;0;0;0]; bl_width := 12; bl_items := fun i => match i with 1%nat => repeat (repeat 0 12) (Z.to_nat big_n) | _ => [] end |} ] |}.
Lemma zlen_repeat {A} (x : A) n : 0 <= n -> zlen (repeat x (Z.to_nat n)) = n.
Proof. intros H. unfold zlen. rewrite repeat_length. lia. Qed.
Lemma Forall_repeat {A} (P : A -> Prop) x n : P x -> Forall P (repeat x n).
Proof. intros H. apply Forall_forall. intros y Hy. apply repeat_spec in Hy. subst. exact H. Qed.
Lemma big_ok : snapshot_ok big big_defs.
Proof.
  split; [reflexivity|]. split; [reflexivity|]. split; [repeat constructor; unfold big_n; lia|]. split; [reflexivity|]. split; [repeat constructor|]. split; [reflexivity|]. split; [|repeat constructor; cbn; tauto].
  constructor; [|constructor]. split; [reflexivity|]. split; [cbn; lia|]. split; [left; reflexivity|]. split; [discriminate|]. split; [repeat constructor; cbn; tauto|].
  intros i Hi. cbn [stored_types big_defs cd_types cd_name String.eqb Ascii.eqb Bool.eqb] in Hi. destruct Hi as [<-|[]]. split; [lia|].
  cbn [bl_items big sn_npart nth bl_width]. split; [apply zlen_repeat; unfold big_n; lia|]. apply Forall_repeat. reflexivity.
Qed.
Lemma big_refused : Gadget1File (snapshot_bytes big big_defs) big_defs 1 = Err OSError.
Proof.
  apply (C225_big big [] _ _ [] 1 big_ok eq_refl); [lia|].
  match goal with |- context [stored_items big ?d ?b] => assert (stored_items big d b = repeat (repeat 0 12) (Z.to_nat big_n)) as E end.
  { unfold stored_items. cbn [stored_types cd_types cd_name String.eqb Ascii.eqb Bool.eqb flat_map bl_items]. apply app_nil_r. }
  rewrite E, zlen_repeat by (unfold big_n; lia). cbn [bl_width]. unfold big_n. lia.
Qed.
Theorem C225_gadget_2gb_refuted : exists sn defs p, snapshot_ok sn defs /\ (p < 6)%nat /\ 0 < nth p (sn_npart sn) 0 /\
  Gadget1File (snapshot_bytes sn defs) defs p = Err OSError.
Proof. exists big, big_defs, 1%nat. split; [exact big_ok|]. split; [lia|]. split; [cbn [big sn_npart nth]; unfold big_n; lia|]. exact big_refused. Qed.
Print Assumptions C225_gadget_2gb_refuted.

(* C226: the FITS extension used *)
Theorem C226_default : forall l e, FITSFile l None = Ok e <->
  exists n, e = Number n /\ table l n /\ (forall m v, (m < n)%nat -> nth_error l m = Some v -> u_data v = false).
Proof. exact fits_default. Qed.
Print Assumptions C226_default.
Theorem C226_number : forall l n e, FITSFile l (Some (Number n)) = Ok e <-> e = Number n /\ table l n.
Proof. exact fits_number. Qed.
Print Assumptions C226_number.
Theorem C226_name : forall l s e, NoDup (map u_name l) ->
  FITSFile l (Some (Extname s)) = Ok e <-> e = Extname s /\ exists u, In u l /\ u_name u = s /\ u_data u = true /\ u_image u = false.
Proof. exact fits_named. Qed.
Print Assumptions C226_name.
Theorem C226_error : forall l e x, (forall s, e <> Some (Extname s)) -> FITSFile l e = Err x -> x = ValueError.
Proof. exact fits_error. Qed.
Print Assumptions C226_error.
Theorem C226_missing : forall l s, (forall u, In u l -> u_name u <> s) -> FITSFile l (Some (Extname s)) = Err ValueError.
Proof. exact fits_missing. Qed.
Print Assumptions C226_missing.
Definition hdus (image : bool) : list hdu := [ {| u_name := "PRIMARY"; u_data := image; u_image := true |}; {| u_name := "CAT"; u_data := true; u_image := false |} ]%string.
Example C226_first : FITSFile (hdus false) None = Ok (Number 1) /\ FITSFile (hdus false) (Some (Extname "CAT")) = Ok (Extname "CAT") /\
  FITSFile (hdus false) (Some (Number 7)) = Err ValueError /\ FITSFile (hdus false) (Some (Extname "NONE")) = Err ValueError.
Proof. repeat split. Qed.
Example C226_names : NoDup (map u_name (hdus false)).
Proof. repeat constructor; cbn; intuition discriminate. Qed.

(* C227: an image before the table *)
Theorem C227_fits_image_first_refuted : exists l n, table l n /\ FITSFile l (Some (Number n)) = Ok (Number n) /\ FITSFile l None = Err ValueError.
Proof. exists (hdus true), 1%nat. split; [|split; reflexivity]. eexists. split; [reflexivity|]. split; reflexivity. Qed.
Print Assumptions C227_fits_image_first_refuted.
(* C228: a named extension that is no table *)
Theorem C228_fits_named_refuted : exists l s, FITSFile l (Some (Extname s)) = Err TypeError.
Proof. exists (hdus true), "PRIMARY"%string. reflexivity. Qed.
Print Assumptions C228_fits_named_refuted.
Theorem C228_iff : forall l s, NoDup (map u_name l) ->
  (FITSFile l (Some (Extname s)) = Err TypeError <-> exists u, In u l /\ u_name u = s /\ (u_data u = false \/ u_image u = true)).
Proof.
  intros l s Hnd. pose proof (fits_named l s (Extname s) Hnd) as K. split.
  - intros H. unfold FITSFile in H. pose proof (named_ok l s) as N. destruct (named l s) as [u|] eqn:En; [|discriminate]. cbn [rbind] in H. rewrite En in H.
    exists u. split; [apply N|]. split; [apply N|]. destruct (u_data u); [|auto]. destruct (u_image u); [auto|discriminate].
  - intros (u & Hu & Hn & Hd). unfold FITSFile in *. pose proof (named_ok l s) as N. destruct (named l s) as [v|] eqn:En; [|exfalso; eapply N; eassumption].
    cbn [rbind] in *. rewrite En in *. destruct (negb (u_data v) || u_image v) eqn:Ev; [reflexivity|]. exfalso.
    destruct (proj1 K eq_refl) as (_ & w & Hw & Hwn & Hwd & Hwi).
    assert (u = w) as ->.
    { clear - Hnd Hu Hw Hn Hwn. induction l as [|z l IH]; [contradiction|]. cbn in Hnd. inversion Hnd as [|? ? Hz Hnd']; subst.
      destruct Hu as [Hi|Hu]; [subst z|]; (destruct Hw as [Hi2|Hw]; [subst|]); auto; exfalso; apply Hz; [rewrite <- Hwn|rewrite Hwn]; apply in_map; assumption. }
    destruct Hd; congruence.
Qed.
Print Assumptions C228_iff.

(* C229: TPM files *)
Theorem C229_read : forall (header : list Z) precision w table columns start stop step size,
  (precision = "f4"%string /\ w = 4 \/ precision = "f8"%string /\ w = 8) -> zlen header = 28 -> well_formed size [3 * w; 3 * w; 8] table ->
  Forall (fun c => (c < 3)%nat) columns -> 0 <= start <= stop -> stop <= size -> 1 <= step ->
  TPM_size (layout header table) precision = Ok size /\
  exists out, TPM_read (layout header table) precision columns start stop step = Ok out /\
    Forall2 (fun c rows => rows_at (nth c table []) (py_range start stop step) rows) columns out.
Proof. exact tpm_read. Qed.
Print Assumptions C229_read.
Theorem C229_precision : forall (file : list Z) precision, precision <> "f4"%string -> precision <> "f8"%string -> TPM_size file precision = Err ValueError.
Proof. exact tpm_precision. Qed.
Print Assumptions C229_precision.
Definition tpm_table : list (list (list Z)) := [ [repeat 1 12; repeat 2 12]; [repeat 3 12; repeat 4 12]; [repeat 5 8; repeat 6 8] ].
Example C229_example : TPM_size (layout (repeat 0 28) tpm_table) "f4" = Ok 2 /\ TPM_read (layout (repeat 0 28) tpm_table) "f4" [2; 0]%nat 1 2 1 = Ok [[repeat 6 8]; [repeat 2 12]] /\
  well_formed 2 [3 * 4; 3 * 4; 8] tpm_table.
Proof. split; [vm_compute; reflexivity|]. split; [vm_compute; reflexivity|]. repeat constructor; lia. Qed.

(* C230: a name instead of a list of names *)
Theorem C230_str : forall (file : list Z) hs size names itemsizes s start stop step, s <> EmptyString -> (forall a, ~ In (String a EmptyString) names) ->
  named_read file hs size names itemsizes (Name s) start stop step = Err KeyError.
Proof. intros file hs size names itemsizes s start stop step. exact (str_column file hs size names itemsizes s start stop step). Qed.
Print Assumptions C230_str.
Theorem C230_str_columns_refuted : exists (file : list Z) names itemsizes s rows,
  named_read file 0 2 names itemsizes (Names [s]) 0 2 1 = Ok [rows] /\ named_read file 0 2 names itemsizes (Name s) 0 2 1 = Err KeyError.
Proof. exists [1; 2], ["id"%string], [1], "id"%string, [[1]; [2]]. split; vm_compute; reflexivity. Qed.
Print Assumptions C230_str_columns_refuted.
