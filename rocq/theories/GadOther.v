(* TPM and FITS files, column names *)
From Verif Require Import Base BaseProofs IoModel IoSpec IoProofs GadModel.
From Coq Require Import String.
Local Open Scope Z_scope.
Local Notation length := List.length.

Lemma tpm_sizes precision k : TPM_itemsizes precision = Ok k -> (precision = "f4" \/ precision = "f8")%string.
Proof. unfold TPM_itemsizes. destruct (String.eqb_spec precision "f4"); [auto|]. destruct (String.eqb_spec precision "f8"); [auto|discriminate]. Qed.
Lemma tpm_read {B} (header : list B) precision w table columns start stop step size :
  (precision = "f4"%string /\ w = 4 \/ precision = "f8"%string /\ w = 8) -> zlen header = 28 -> well_formed size [3 * w; 3 * w; 8] table ->
  Forall (fun c => (c < 3)%nat) columns -> 0 <= start <= stop -> stop <= size -> 1 <= step ->
  TPM_size (layout header table) precision = Ok size /\
  exists out, TPM_read (layout header table) precision columns start stop step = Ok out /\
    Forall2 (fun c rows => rows_at (nth c table []) (py_range start stop step) rows) columns out.
Proof.
  intros Hp Hh Hwf Hc Hs Hle Hst.
  assert (E : TPM_itemsizes precision = Ok [3 * w; 3 * w; 8]) by (destruct Hp as [[-> ->]|[-> ->]]; reflexivity).
  assert (Hlen : length table = 3%nat).
  { inversion Hwf as [|? ? ? ? _ H1]; subst. inversion H1 as [|? ? ? ? _ H2]; subst. inversion H2 as [|? ? ? ? _ H3]; subst. inversion H3. reflexivity. }
  assert (Hne : table <> []) by (intros ->; discriminate).
  pose proof (getsize_layout header _ _ _ Hwf Hne) as Hg. rewrite Hh in Hg.
  unfold TPM_size, TPM_read. rewrite E. cbn [rbind]. rewrite Hg. cbn [rbind]. split; [reflexivity|].
  rewrite <- Hh. rewrite (binary_read_ok header size _ table columns start stop step Hwf) by (first [lia | eapply Forall_impl; [|exact Hc]; cbn beta; lia]).
  eexists. split; [reflexivity|]. clear E Hg.
  induction Hc as [|c columns Hc _ IH]; [constructor|]. cbn [map]. constructor; [|exact IH].
  apply rows_at_select. apply range_in_range; try lia.
  destruct (nth_error table c) as [col|] eqn:Ec; [|apply nth_error_None in Ec; lia].
  rewrite (nth_error_nth table c [] Ec). destruct (wf_nth _ _ _ _ _ Hwf Ec) as (k & _ & _ & -> & _). lia.
Qed.
Lemma tpm_precision {B} (file : list B) precision : precision <> "f4"%string -> precision <> "f8"%string -> TPM_size file precision = Err ValueError.
Proof.
  intros H1 H2. unfold TPM_size, TPM_itemsizes. destruct (String.eqb_spec precision "f4"); [congruence|]. destruct (String.eqb_spec precision "f8"); [congruence|]. reflexivity.
Qed.

(* ---- a str for columns ---- *)
Lemma position_none l k : ~ In k l -> position l k = None.
Proof. induction l as [|x l IH]; intros H; [reflexivity|]. cbn. destruct (String.eqb_spec x k); [exfalso; apply H; left; assumption|]. rewrite IH; [reflexivity|]. intros K; apply H; right; exact K. Qed.
Lemma str_column {B} (file : list B) hs size names itemsizes s start stop step : s <> EmptyString -> (forall a, ~ In (String a EmptyString) names) ->
  named_read file hs size names itemsizes (Name s) start stop step = Err KeyError.
Proof.
  intros Hs Hn. destruct s as [|a s]; [congruence|]. unfold named_read. cbn [column_list characters map rall].
  rewrite position_none by apply Hn. reflexivity.
Qed.

(* ---- FITS ---- *)
Definition table (l : list hdu) (n : nat) : Prop := exists u, nth_error l n = Some u /\ u_data u = true /\ u_image u = false.
Lemma first_data_ok l : forall k, match first_data l k with
  | Some i => exists j u, i = (k + j)%nat /\ nth_error l j = Some u /\ u_data u = true /\ (forall m v, (m < j)%nat -> nth_error l m = Some v -> u_data v = false)
  | None => forall m v, nth_error l m = Some v -> u_data v = false end.
Proof.
  induction l as [|u l IH]; intros k; cbn [first_data]; [intros [|m] v; discriminate|].
  destruct (u_data u) eqn:E.
  - exists 0%nat, u. repeat split; auto; lia.
  - specialize (IH (S k)). destruct (first_data l (S k)) as [i|].
    + destruct IH as (j & w & -> & Hw & Hd & Hf). exists (S j), w. repeat split; auto; [lia|].
      intros [|m] v Hm Hv; [injection Hv as <-; exact E|]. eapply Hf; [|exact Hv]. lia.
    + intros [|m] v Hv; [injection Hv as <-; exact E|]. eapply IH; exact Hv.
Qed.
Lemma fits_default l e : FITSFile l None = Ok e <->
  exists n, e = Number n /\ table l n /\ (forall m v, (m < n)%nat -> nth_error l m = Some v -> u_data v = false).
Proof.
  unfold FITSFile. pose proof (first_data_ok l 0) as K. destruct (first_data l 0) as [i|]; cbn [rbind].
  - destruct K as (j & u & -> & Hu & Hd & Hf). cbn [Nat.add]. rewrite Hu, Hd. cbn [negb orb]. split.
    + destruct (u_image u) eqn:Ei; [discriminate|]. intros H. injection H as <-. exists j. split; [reflexivity|]. split; [exists u; auto|exact Hf].
    + intros (n & -> & (v & Hv & Hvd & Hvi) & Hn).
      assert (n = j) as ->.
      { destruct (Nat.lt_trichotomy n j) as [L|[L|L]]; [|exact L|].
        - pose proof (Hf n v L Hv). congruence.
        - pose proof (Hn j u L Hu). congruence. }
      assert (v = u) as -> by congruence. rewrite Hvi. reflexivity.
  - split; [discriminate|]. intros (n & _ & (v & Hv & Hvd & _) & _). pose proof (K n v Hv). congruence.
Qed.
Lemma fits_number l n e : FITSFile l (Some (Number n)) = Ok e <-> e = Number n /\ table l n.
Proof.
  unfold FITSFile. destruct (Nat.leb_spec (length l) n) as [L|L]; cbn [rbind].
  - split; [discriminate|]. intros (_ & u & Hu & _). apply nth_error_None in L. congruence.
  - destruct (nth_error l n) as [u|] eqn:E; [|apply nth_error_None in E; lia]. split.
    + destruct (u_data u) eqn:Ed; [|discriminate]. destruct (u_image u) eqn:Ei; [discriminate|]. cbn. intros H. injection H as <-. split; [reflexivity|]. exists u; auto.
    + intros (-> & v & Hv & Hd & Hi). assert (v = u) as -> by congruence. rewrite Hd, Hi. reflexivity.
Qed.
Lemma fits_error l e x : (forall s, e <> Some (Extname s)) -> FITSFile l e = Err x -> x = ValueError.
Proof.
  intros Hs. unfold FITSFile. destruct e as [[n|s]|].
  - destruct (Nat.leb_spec (length l) n) as [L|L]; cbn [rbind]; [congruence|].
    destruct (nth_error l n) as [u|] eqn:E; [|apply nth_error_None in E; lia]. destruct (negb (u_data u) || u_image u); congruence.
  - exfalso; eapply Hs; reflexivity.
  - pose proof (first_data_ok l 0) as K. destruct (first_data l 0) as [i|]; cbn [rbind]; [|congruence].
    destruct K as (j & u & -> & Hu & _). cbn [Nat.add]. rewrite Hu. destruct (negb (u_data u) || u_image u); congruence.
Qed.
Lemma named_ok l s : match named l s with Some u => In u l /\ u_name u = s | None => forall u, In u l -> u_name u <> s end.
Proof.
  induction l as [|u l IH]; cbn; [auto|]. destruct (String.eqb_spec (u_name u) s); [auto|].
  destruct (named l s) as [v|]; [tauto|]. intros w [<-|Hw]; auto.
Qed.
Lemma fits_named l s e : NoDup (map u_name l) -> FITSFile l (Some (Extname s)) = Ok e <-> e = Extname s /\ exists u, In u l /\ u_name u = s /\ u_data u = true /\ u_image u = false.
Proof.
  intros Hnd. unfold FITSFile. pose proof (named_ok l s) as K. destruct (named l s) as [u|] eqn:En; cbn [rbind]; rewrite ?En.
  - destruct K as [Hin Hname]. split.
    + destruct (u_data u) eqn:Ed; cbn [negb orb]; [|discriminate]. destruct (u_image u) eqn:Ei; [discriminate|]. intros H. injection H as <-. split; [reflexivity|]. exists u; auto.
    + intros (-> & v & Hv & Hvn & Hd & Hi). assert (v = u) as ->.
      { clear - Hnd Hin Hv Hname Hvn. induction l as [|w l IH]; [contradiction|]. cbn in Hnd. inversion Hnd as [|? ? Hw Hnd']; subst.
        destruct Hin as [Hi|Hin]; [subst w|]; (destruct Hv as [Hi2|Hv]; [subst|]); auto; exfalso; apply Hw; [rewrite <- Hvn|rewrite Hvn]; apply in_map; assumption. }
      rewrite Hd, Hi. reflexivity.
  - split; [discriminate|]. intros (_ & v & Hv & Hn & _). exfalso. eapply K; eassumption.
Qed.
Lemma fits_missing l s : (forall u, In u l -> u_name u <> s) -> FITSFile l (Some (Extname s)) = Err ValueError.
Proof. intros H. unfold FITSFile. pose proof (named_ok l s) as K. destruct (named l s) as [u|]; [|reflexivity]. destruct K as [A B]. exfalso. eapply H; eassumption. Qed.
