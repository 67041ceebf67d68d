From Verif Require Import Base BaseProofs Num RanksProofs DistModel DistProofs PaintModel PaintSpec.
Local Open Scope Qc_scope.

Definition dflt {A} (x : option (list A)) (d : A) (n : nat) : list A := match x with None => repeat d n | Some l => l end.
Definition clip (a n : Z) : Z := Z.min a n.

Lemma sub_repeat {A} (x : A) n a b : (0 <= a)%Z -> (b <= Z.of_nat n)%Z -> sub (repeat x n) a b = repeat x (Z.to_nat (b - a)).
Proof.
  intros Ha Hb. apply nth_error_ext. intros i. unfold sub. rewrite nth_error_firstn, nth_error_skipn, !nth_error_repeat.
  destruct (Nat.ltb_spec i (Z.to_nat (b - a))); [|reflexivity]. destruct (Nat.ltb_spec (Z.to_nat a + i) n); [reflexivity|lia].
Qed.
Lemma masked_repeat_true {A} (l : list A) : masked l (repeat true (length l)) = l.
Proof. induction l as [|x l IH]; [reflexivity|]. unfold masked in *. cbn. rewrite IH. reflexivity. Qed.
Lemma masked_repeat {A B} (x : B) (l : list A) m : length m = length l -> masked (repeat x (length l)) m = repeat x (length (masked l m)).
Proof.
  revert m. induction l as [|y l IH]; intros [|b m] H; try discriminate; [reflexivity|]. injection H as H. specialize (IH m H).
  unfold masked in *. cbn. destruct b; cbn; rewrite IH; reflexivity.
Qed.
Lemma masked_length_eq {A B} (l : list A) (l' : list B) m : length l = length l' -> length (masked l m) = length (masked l' m).
Proof.
  revert l' m. induction l as [|y l IH]; intros [|z l'] m H; try discriminate; [reflexivity|]. injection H as H.
  destruct m as [|b m]; [reflexivity|]. specialize (IH l' m H). unfold masked in *. cbn. destruct b; cbn; congruence.
Qed.
Lemma particles_of_length {P} (p : list P) ws vs : length ws = length p -> length vs = length p -> length (particles_of P p ws vs) = length p.
Proof. intros H1 H2. unfold particles_of. rewrite map_length, !combine_length. lia. Qed.
Lemma particles_masked {P} (p : list P) : forall ws vs m, length ws = length p -> length vs = length p ->
  particles_of P (masked p m) (masked ws m) (masked vs m) = masked (particles_of P p ws vs) m.
Proof.
  induction p as [|x p IH]; intros [|a ws] [|b vs] m H1 H2; try discriminate; [reflexivity|]. injection H1 as H1. injection H2 as H2.
  destruct m as [|t m]; [reflexivity|]. specialize (IH ws vs m H1 H2). unfold masked, particles_of in *. cbn. destruct t; cbn; rewrite IH; reflexivity.
Qed.
Lemma combine_firstn' {A B} n : forall (l : list A) (l' : list B), combine (firstn n l) (firstn n l') = firstn n (combine l l').
Proof. induction n as [|n IH]; intros [|x l] [|y l']; cbn; try reflexivity. rewrite IH. reflexivity. Qed.
Lemma combine_skipn' {A B} n : forall (l : list A) (l' : list B), length l = length l' -> combine (skipn n l) (skipn n l') = skipn n (combine l l').
Proof. induction n as [|n IH]; intros [|x l] [|y l'] H; try discriminate; try reflexivity. cbn. apply IH. injection H; auto. Qed.
Lemma combine_sub {A B} (l : list A) (l' : list B) a b : length l = length l' -> combine (sub l a b) (sub l' a b) = sub (combine l l') a b.
Proof. intros H. unfold sub. rewrite combine_firstn', combine_skipn' by exact H. reflexivity. Qed.
Lemma map_sub {A B} (f : A -> B) l a b : map f (sub l a b) = sub (map f l) a b.
Proof. unfold sub. rewrite <- firstn_map, <- skipn_map. reflexivity. Qed.
Lemma particles_sub {P} (p : list P) ws vs a b : length ws = length p -> length vs = length p ->
  particles_of P (sub p a b) (sub ws a b) (sub vs a b) = sub (particles_of P p ws vs) a b.
Proof.
  intros H1 H2. unfold particles_of. rewrite combine_sub by congruence. rewrite combine_sub by (rewrite combine_length; lia).
  apply map_sub.
Qed.

Section PaintProofs.
Variable P : Type.
Notation columns := (columns P).

Definition parts_of (r : columns) : list (particle P) :=
  particles_of P (position r) (dflt (weight r) 1 (length (position r))) (dflt (value r) 1 (length (position r))).
Definition mask_of (r : columns) : list bool := dflt (selection r) true (length (position r)).
(* the selected rows among the first n *)
Definition done (r : columns) (i : Z) : list (particle P) :=
  masked (sub (parts_of r) 0 (Z.min i (zlen (position r)))) (sub (mask_of r) 0 (Z.min i (zlen (position r)))).

Lemma dflt_length {A B} (l : list B) (x : option (list A)) d : same_length l x -> length (dflt x d (length l)) = length l.
Proof. intros H. destruct x as [y|]; cbn; [apply H; reflexivity|apply repeat_length]. Qed.
Lemma parts_length r : aligned r -> length (parts_of r) = length (position r).
Proof. intros (H1 & H2 & _). apply particles_of_length; apply dflt_length; assumption. Qed.
Lemma mask_length r : aligned r -> length (mask_of r) = length (position r).
Proof. intros (_ & _ & H). apply dflt_length, H. Qed.

Lemma selected_all r : aligned r -> selected r = masked (parts_of r) (mask_of r).
Proof.
  intros H. pose proof (parts_length r H) as LP. pose proof (mask_length r H) as LM. unfold selected, masked. set (n := length (position r)) in *.
  assert (combine (parts_of r) (mask_of r) =
          map (fun ip => ({| pos := snd ip; w := at_row (weight r) 1 (fst ip); v := at_row (value r) 1 (fst ip) |}, at_row (selection r) true (fst ip)))
              (combine (seq 0 n) (position r))) as E.
  { assert (HC : forall {A B} (l : list A) (l' : list B) i, nth_error (combine l l') i =
        match nth_error l i, nth_error l' i with Some x, Some y => Some (x, y) | _, _ => None end).
    { clear. intros A B l. induction l as [|x l IH]; intros [|y l'] [|i]; cbn; try reflexivity; [destruct (nth_error l i); reflexivity|apply IH]. }
    assert (HD : forall {A} (x : option (list A)) d i, same_length (position r) x -> (i < n)%nat -> nth_error (dflt x d n) i = Some (at_row x d i)).
    { intros A x d i HS Hi. destruct x as [y|]; cbn [dflt at_row].
      - apply nth_error_nth'. rewrite (HS y eq_refl). exact Hi.
      - rewrite nth_error_repeat. destruct (Nat.ltb_spec i n); [reflexivity|lia]. }
    apply nth_error_ext. intros i. rewrite nth_error_map', !HC. unfold parts_of, particles_of, mask_of. rewrite nth_error_map', !HC, nth_error_seq. fold n.
    destruct H as (H1 & H2 & H3). destruct (Nat.ltb_spec i n) as [L|L].
    - rewrite !HD by assumption. destruct (nth_error (position r) i) eqn:Ep; [reflexivity|apply nth_error_None in Ep; lia].
    - assert (nth_error (position r) i = None) as -> by (apply nth_error_None; exact L). reflexivity. }
  rewrite E. clear E. induction (combine (seq 0 n) (position r)) as [|x l IH]; [reflexivity|].
  cbn [map filter]. cbn [snd]. destruct (at_row (selection r) true (fst x)); cbn [map fst]; rewrite IH; reflexivity.
Qed.

Lemma oslice_ok {A} (l : list P) (x : option (list A)) i c : same_length l x -> (0 <= i)%Z -> (0 <= c)%Z ->
  oslice x i c = Ok (option_map (fun y => sub y (Z.min i (zlen l)) (Z.min (i + c) (zlen l))) x).
Proof.
  intros H Hi Hc. destruct x as [y|]; cbn [oslice option_map]; [|reflexivity].
  rewrite py_slice_chunk by assumption. cbn [rbind]. specialize (H y eq_refl). unfold zlen. rewrite H. reflexivity.
Qed.
Lemma sub_len_eq {A B} (l : list A) (l' : list B) a b : length l = length l' -> length (sub l a b) = length (sub l' a b).
Proof. intros H. unfold sub. rewrite !firstn_length, !skipn_length. lia. Qed.

Lemma chunk_ok r i c : aligned r -> (0 <= i)%Z -> (0 <= c)%Z ->
  chunk P r i c = Ok (masked (sub (parts_of r) (Z.min i (zlen (position r))) (Z.min (i + c) (zlen (position r))))
                             (sub (mask_of r) (Z.min i (zlen (position r))) (Z.min (i + c) (zlen (position r))))).
Proof.
  intros H Hi Hc. pose proof H as (H1 & H2 & H3). pose proof (parts_length r H) as LP. pose proof (mask_length r H) as LM.
  unfold chunk. destruct (Z.eqb_spec (zlen (position r)) 0) as [E|E].
  { assert (position r = []) as EP by (destruct (position r); [reflexivity|unfold zlen in E; cbn in E; lia]).
    destruct (parts_of r) eqn:E1; [|rewrite EP in LP; discriminate]. unfold sub. rewrite skipn_nil, firstn_nil. reflexivity. }
  rewrite py_slice_chunk by assumption. cbn [rbind].
  rewrite (oslice_ok (position r) (weight r)), (oslice_ok (position r) (value r)), (oslice_ok (position r) (selection r)) by assumption.
  cbn [rbind]. set (a := Z.min i (zlen (position r))). set (b := Z.min (i + c) (zlen (position r))).
  set (n := length (position r)) in *.
  assert (Hb : (b <= Z.of_nat n)%Z) by (unfold b, n, zlen; lia). assert (Ha : (0 <= a)%Z) by (unfold a, zlen; lia).
  assert (LS : length (sub (position r) a b) = Z.to_nat (b - a)) by (unfold sub; rewrite firstn_length, skipn_length; fold n; lia).
  (* the mask is always a list of the right length *)
  assert (HM : forall A (x : list A), length x = n ->
     pick (option_map (fun y => sub y a b) (selection r)) (sub x a b) = Ok (masked (sub x a b) (sub (mask_of r) a b))).
  { intros A x Hx. unfold pick, mask_of. destruct (selection r) as [m|] eqn:ES; cbn [option_map dflt].
    - assert (length m = n) as Lm by (apply H3; reflexivity). rewrite (sub_len_eq m x a b) by congruence. rewrite Nat.eqb_refl. reflexivity.
    - fold n. rewrite sub_repeat by assumption. f_equal.
      replace (Z.to_nat (b - a)) with (length (sub x a b)) by (rewrite (sub_len_eq x (position r)) by exact Hx; exact LS).
      rewrite masked_repeat_true. reflexivity. }
  rewrite HM by reflexivity. cbn [rbind].
  assert (HO : forall x, same_length (position r) x ->
     opick (option_map (fun y => sub y a b) (selection r)) (option_map (fun y => sub y a b) x) (length (masked (sub (position r) a b) (sub (mask_of r) a b)))
     = Ok (masked (sub (dflt x 1 n) a b) (sub (mask_of r) a b))).
  { intros x Hx. destruct x as [y|]; cbn [option_map opick dflt].
    - apply HM. apply Hx. reflexivity.
    - rewrite sub_repeat by assumption. rewrite <- LS. rewrite masked_repeat; [reflexivity|]. apply sub_len_eq. fold n. exact LM. }
  rewrite !HO by assumption. cbn [rbind].
  assert (LD : forall x : option (list Qc), same_length (position r) x -> length (dflt x 1 n) = n) by (intros x Hx; apply dflt_length, Hx).
  rewrite (masked_length_eq (sub (dflt (weight r) 1 n) a b) (sub (position r) a b)) by (apply sub_len_eq, LD, H1).
  rewrite (masked_length_eq (sub (dflt (value r) 1 n) a b) (sub (position r) a b)) by (apply sub_len_eq, LD, H2).
  rewrite Nat.eqb_refl. cbn [andb]. f_equal.
  rewrite particles_masked by (apply sub_len_eq, LD; assumption). rewrite particles_sub by (apply LD; assumption). reflexivity.
Qed.

Lemma done_step r i c : aligned r -> (0 <= i)%Z -> (0 <= c)%Z ->
  exists ps, chunk P r i c = Ok ps /\ done r (i + c) = done r i ++ ps.
Proof.
  intros H Hi Hc. rewrite chunk_ok by assumption. eexists; split; [reflexivity|]. unfold done.
  pose proof (parts_length r H) as LP. pose proof (mask_length r H) as LM. set (n := zlen (position r)).
  assert (Hn : (0 <= n)%Z) by apply zlen_nonneg.
  rewrite <- masked_app by (apply sub_len_eq; congruence).
  rewrite <- (sub_app_split (parts_of r) 0 (Z.min i n) (Z.min (i + c) n)) by (try lia; unfold n, zlen in *; rewrite ?LP; lia).
  rewrite <- (sub_app_split (mask_of r) 0 (Z.min i n) (Z.min (i + c) n)) by (try lia; unfold n, zlen in *; rewrite ?LM; lia).
  reflexivity.
Qed.
Lemma done_0 r : done r 0 = [].
Proof. unfold done. rewrite Z.min_l by apply zlen_nonneg. rewrite !sub_empty. reflexivity. Qed.
Lemma done_all r i : aligned r -> (zlen (position r) <= i)%Z -> done r i = selected r.
Proof.
  intros H Hi. rewrite selected_all by exact H. unfold done. rewrite Z.min_r by exact Hi.
  pose proof (parts_length r H) as LP. pose proof (mask_length r H) as LM.
  replace (sub (parts_of r) 0 _) with (parts_of r) by (unfold zlen; rewrite <- LP; symmetry; apply (sub_full (parts_of r))).
  replace (sub (mask_of r) 0 _) with (mask_of r) by (unfold zlen; rewrite <- LM; symmetry; apply (sub_full (mask_of r))).
  reflexivity.
Qed.

Lemma deposit_app k (a b : list (particle P)) c : deposit k (a ++ b) c = deposit k a c + deposit k b c.
Proof. unfold deposit. rewrite map_app, qsum_app. reflexivity. Qed.
Lemma deposit_nil (k : P -> field) c : deposit k [] c = 0.
Proof. reflexivity. Qed.
Lemma paint_deposit k ps : forall f c, paint P k f ps c = f c + deposit k ps c.
Proof.
  induction ps as [|p ps IH]; intros f c; unfold paint in *; cbn [fold_left].
  - rewrite deposit_nil. ring.
  - rewrite IH. unfold fadd, deposit. cbn [map]. rewrite qsum_cons. ring.
Qed.
Lemma paint_all_deposit k pss : forall f c, fold_left (paint P k) pss f c = f c + deposit k (concat pss) c.
Proof.
  induction pss as [|ps pss IH]; intros f c; cbn [fold_left concat]; [rewrite deposit_nil; ring|].
  rewrite IH, paint_deposit, deposit_app. ring.
Qed.
Definition sums_of (ps : list (particle P)) : sums :=
  {| sN := zlen ps; sW := qsum (map w ps); sW2 := qsum (map (fun p => w p * w p) ps) |}.
Lemma sadd_sums a b : sadd P (sums_of a) b = sums_of (a ++ b).
Proof. unfold sadd, sums_of. cbn. rewrite zlen_app, !map_app, !qsum_app. reflexivity. Qed.

Variable kern kern2 : P -> field.
Definition done_by (ranks : list columns) (i : Z) : list (particle P) := concat (map (fun r => done r i) ranks).
Definition inv (i1 i2 : field) (interlaced : bool) (ranks : list columns) (i : Z) (s : state) : Prop :=
  (forall c, real1 s c = i1 c + deposit kern (done_by ranks i) c) /\
  (forall c, real2 s c = i2 c + (if interlaced then deposit kern2 (done_by ranks i) c else 0)) /\
  locals s = map (fun r => sums_of (done r i)) ranks.

Lemma chunks_ok ranks i c : Forall aligned ranks -> (0 <= i)%Z -> (0 <= c)%Z ->
  exists parts, rall (map (fun r => chunk P r i c) ranks) = Ok parts /\ length parts = length ranks /\
    (forall k x, deposit k (done_by ranks (i + c)) x = deposit k (done_by ranks i) x + deposit k (concat parts) x) /\
    map (fun lp => sadd P (fst lp) (snd lp)) (combine (map (fun r => sums_of (done r i)) ranks) parts)
      = map (fun r => sums_of (done r (i + c))) ranks.
Proof.
  intros H Hi Hc. induction H as [|r ranks Hr H IH].
  - exists []. split; [reflexivity|]. split; [reflexivity|]. split; [|reflexivity]. intros k x. unfold done_by. cbn [map concat]. rewrite !deposit_nil. ring.
  - destruct IH as (parts & E & L & D & S). destruct (done_step r i c Hr Hi Hc) as (ps & E1 & E2).
    exists (ps :: parts). cbn [map rall]. rewrite E1. cbn [rbind]. rewrite E. cbn [rbind]. split; [reflexivity|]. split; [cbn; congruence|]. split.
    + intros k x. unfold done_by in *. cbn [map concat]. rewrite !deposit_app, D, E2, deposit_app. ring.
    + cbn [map combine fst snd]. rewrite S, sadd_sums, E2. reflexivity.
Qed.

Lemma loop_ok throttle max_chunk interlaced ranks nmax i1 i2 : Forall aligned ranks -> (1 <= max_chunk)%Z ->
  forall fuel attempt i chunksize s, (0 <= i)%Z -> (1 <= chunksize <= max_chunk)%Z ->
  ((nmax - i) * (max_chunk + 1) - (max_chunk + 1) + chunksize <= Z.of_nat fuel)%Z ->
  inv i1 i2 interlaced ranks i s ->
  (exists s' i', loop P kern kern2 fuel throttle attempt max_chunk interlaced ranks nmax i chunksize s = Ok s' /\
      (nmax <= i')%Z /\ inv i1 i2 interlaced ranks i' s') \/
  (loop P kern kern2 fuel throttle attempt max_chunk interlaced ranks nmax i chunksize s = Err RuntimeError /\ exists a, throttle a = true).
Proof.
  intros HA HM. induction fuel as [|fuel IH]; intros attempt i chunksize s Hi Hc HF I.
  - cbn [loop]. destruct (Z.ltb_spec i nmax); [nia|]. left. exists s, i. auto.
  - cbn [loop]. destruct (Z.ltb_spec i nmax) as [L|L]; [|left; exists s, i; auto].
    destruct (chunks_ok ranks i chunksize HA) as (parts & E & LP & D & S); [lia..|]. rewrite E. cbn [rbind].
    destruct (throttle attempt) eqn:T.
    + destruct (Z.ltb_spec (chunksize / 2) 1) as [L2|L2]; [right; eauto|]. apply IH; auto; [lia|]. assert (chunksize / 2 <= chunksize - 1)%Z by lia. lia.
    + assert (1 <= Z.min max_chunk (chunksize * 3 / 2) <= max_chunk)%Z by lia.
      apply IH; [lia|lia|nia|]. destruct I as (I1 & I2 & I3). split; [|split]; cbn [real1 real2 locals].
      * intros c. rewrite paint_all_deposit, I1, D. ring.
      * intros c. destruct interlaced; [|rewrite I2; ring]. rewrite paint_all_deposit, I2, D. ring.
      * rewrite I3. exact S.
Qed.
Lemma loop_calm max_chunk interlaced ranks nmax throttle : (forall a, throttle a = false) ->
  forall fuel attempt i chunksize s,
  loop P kern kern2 fuel throttle attempt max_chunk interlaced ranks nmax i chunksize s <> Err RuntimeError \/
  exists r i c, In r ranks /\ is_ok (chunk P r i c) = false.
Proof.
  intros HT. induction fuel as [|fuel IH]; intros attempt i chunksize s; cbn [loop]; destruct (i <? nmax)%Z; try (left; discriminate).
  destruct (rall (map (fun r => chunk P r i chunksize) ranks)) as [parts|e] eqn:E.
  - cbn [rbind]. rewrite HT. apply IH.
  - right. clear -E. induction ranks as [|r ranks IH]; [discriminate|]. cbn [map rall] in E.
    destruct (chunk P r i chunksize) eqn:E1.
    + cbn [rbind] in E. destruct (rall _) eqn:E2; [discriminate|]. cbn [rbind] in E. injection E as ->.
      destruct (IH eq_refl) as (r' & i' & c' & Hin & HE). exists r', i', c'. split; [right; exact Hin|exact HE].
    + exists r, i, chunksize. split; [left; reflexivity|]. rewrite E1. reflexivity.
Qed.

Lemma nmax_le ranks r : In r ranks -> (zlen (position r) <= fold_right Z.max 0 (map (fun r : columns => zlen (position r)) ranks))%Z.
Proof. induction ranks as [|x ranks IH]; [intros []|]. cbn [In map fold_right]. intros [->|H]; [lia|]. specialize (IH H). lia. Qed.
Lemma nmax_nonneg ranks : (0 <= fold_right Z.max 0 (map (fun r : columns => zlen (position r)) ranks))%Z.
Proof. induction ranks as [|x ranks IH]; cbn [map fold_right]; lia. Qed.
Lemma done_by_all ranks i : Forall aligned ranks -> (forall r, In r ranks -> (zlen (position r) <= i)%Z) -> done_by ranks i = all_selected ranks.
Proof.
  intros HA Hi. unfold done_by, all_selected. f_equal. apply map_ext_in. intros r Hr. apply done_all; [|apply Hi, Hr]. rewrite Forall_forall in HA. apply HA, Hr.
Qed.
Lemma qsum_ranks {A} (f : particle P -> Qc) (g : A -> list (particle P)) l :
  qsum (map (fun r => qsum (map f (g r))) l) = qsum (map f (concat (map g l))).
Proof.
  rewrite concat_map, qsum_concat, map_map, map_map. reflexivity.
Qed.

Variable ncell : nat.
Variable volume : Qc.
Variable compose : field -> field -> field.

(* the unnormalised field *)
Notation raw := (painted compose).

Lemma to_real_field_ok throttle max_chunk interlaced normalize out ranks :
  Forall aligned ranks -> (1 <= max_chunk)%Z ->
  (exists r f1 f2, to_real_field P kern kern2 ncell volume compose throttle max_chunk interlaced normalize out ranks = Ok r /\
     (forall c, f1 c = deposit kern (all_selected ranks) c) /\
     (interlaced = true -> forall c, f2 c = deposit kern2 (all_selected ranks) c) /\
     aN r = zlen (all_selected ranks) /\ aW r = qsum (map w (all_selected ranks)) /\
     aW2 r = qsum (map (fun p => w p * w p) (all_selected ranks)) /\
     nbar r = aW r / nq ncell /\
     shotnoise r = (if Qc_eq_dec (aW r * aW r) 0 then None else Some (volume * (aW2 r / (aW r * aW r)))) /\
     forall c, cells r c = if normalize then (if Qclt_le_dec 0 (nbar r) then raw interlaced out f1 f2 c / nbar r else 1)
                           else raw interlaced out f1 f2 c) \/
  (to_real_field P kern kern2 ncell volume compose throttle max_chunk interlaced normalize out ranks = Err RuntimeError /\ exists a, throttle a = true).
Proof.
  intros HA HM. unfold to_real_field. set (nmax := fold_right Z.max 0%Z _). pose proof (nmax_nonneg ranks) as Hn. fold nmax in Hn.
  set (i1 := if interlaced then fzero else _).
  set (s0 := {| real1 := i1; real2 := fzero; locals := _ |}).
  destruct (loop_ok throttle max_chunk interlaced ranks nmax i1 fzero HA HM (paint_fuel nmax max_chunk) 0%nat 0 max_chunk s0) as [(s & i' & E & Hi & I)|[E HT]].
  - lia.
  - lia.
  - unfold paint_fuel. nia.
  - assert (D0 : done_by ranks 0 = []).
    { unfold done_by. clear. induction ranks as [|r l IH]; [reflexivity|]. cbn [map concat]. rewrite done_0. exact IH. }
    split; [|split]; cbn [real1 real2 locals s0].
    + intros c. rewrite D0, deposit_nil. ring.
    + intros c. rewrite D0. destruct interlaced; rewrite ?deposit_nil; ring.
    + apply map_ext. intros r. rewrite done_0. reflexivity.
  - left. rewrite E. cbn [rbind]. destruct I as (I1 & I2 & I3).
    assert (DA : done_by ranks i' = all_selected ranks).
    { apply done_by_all; [exact HA|]. intros r Hr. pose proof (nmax_le ranks r Hr). fold nmax in H. lia. }
    assert (DR : map (fun r => sums_of (done r i')) ranks = map (fun r => sums_of (selected r)) ranks).
    { apply map_ext_in. intros r Hr. rewrite done_all; [reflexivity| |].
      - rewrite Forall_forall in HA. apply HA, Hr.
      - pose proof (nmax_le ranks r Hr). fold nmax in H. lia. }
    rewrite I3, DR. rewrite DA in I1, I2.
    set (o := match out with Some f => f | None => fzero end) in *.
    set (nb := _ / nq ncell).
    eexists. exists (if interlaced then real1 s else fun c => deposit kern (all_selected ranks) c), (real2 s).
    split; [reflexivity|]. cbn [aN aW aW2 nbar shotnoise cells].
    assert (EW : qsum (map sW (map (fun r => sums_of (selected r)) ranks)) = qsum (map w (all_selected ranks))).
    { rewrite map_map. cbn [sums_of sW]. apply qsum_ranks. }
    assert (EW2 : qsum (map sW2 (map (fun r => sums_of (selected r)) ranks)) = qsum (map (fun p => w p * w p) (all_selected ranks))).
    { rewrite map_map. cbn [sums_of sW2]. apply qsum_ranks. }
    split; [|split; [|split; [|split; [|split; [|split; [|split]]]]]].
    + intros c. destruct interlaced; [|reflexivity]. rewrite I1. unfold i1, fzero. ring.
    + intros -> c. rewrite I2. unfold fzero. ring.
    + unfold all_selected. rewrite zlen_concat. unfold zsum. rewrite !map_map. reflexivity.
    + exact EW.
    + exact EW2.
    + reflexivity.
    + unfold qdiv. destruct (Qc_eq_dec _ 0); reflexivity.
    + intros c. unfold painted. fold o. destruct normalize.
      * unfold qpos. destruct (Qclt_le_dec 0 nb); [|reflexivity]. destruct interlaced; [reflexivity|]. f_equal. unfold fadd. rewrite I1. unfold i1. reflexivity.
      * destruct interlaced; [reflexivity|]. unfold fadd. rewrite I1. unfold i1. reflexivity.
  - right. rewrite E. split; [reflexivity|exact HT].
Qed.

Notation trf := (to_real_field P kern kern2 ncell volume compose).

(* ---- sums over the mesh ---- *)
Lemma total_ext f g : (forall c, f c = g c) -> total ncell f = total ncell g.
Proof. intros H. unfold total. apply qsum_map_ext. intros; apply H. Qed.
Lemma total_add f g : total ncell (fadd f g) = total ncell f + total ncell g.
Proof. apply qsum_map_add. Qed.
Lemma total_deposit (k : P -> field) (ps : list (particle P)) : (forall p, total ncell (k p) = 1) -> total ncell (deposit k ps) = qsum (map (fun p => w p * v p) ps).
Proof.
  intros HK. unfold total, deposit. rewrite (qsum_swap (fun c p => w p * v p * k (pos p) c)). apply qsum_map_ext. intros p _.
  rewrite qsum_map_scale. unfold total in HK. rewrite HK. ring.
Qed.
Lemma total_div f x : total ncell (fun c => f c / x) = total ncell f / x.
Proof.
  unfold total, Qcdiv. rewrite (qsum_map_ext (fun c => f c * / x) (fun c => / x * f c)) by (intros; ring). rewrite qsum_map_scale. ring.
Qed.
Lemma qsum_ones (l : list nat) : qsum (map (fun _ => 1) l) = nq (length l).
Proof. rewrite <- (map_length (fun _ => 1) l). induction l as [|x l IH]; [reflexivity|]. cbn [map]. rewrite qsum_cons, IH. cbn [length]. unfold nq. rewrite Nat2Z.inj_succ. unfold Z.succ. rewrite zq_add, zq_1. ring. Qed.

Lemma nq_pos n : (0 < n)%nat -> 0 < nq n.
Proof. intros H. apply (proj1 (zq_lt 0 (Z.of_nat n))). lia. Qed.
Lemma pos_neq x : 0 < x -> x <> 0.
Proof. intros H E. subst. revert H. apply Qcle_not_lt, Qcle_refl. Qed.
Lemma div_pos a b : 0 < b -> (0 < a <-> 0 < a / b).
Proof.
  intros Hb. split; intros H.
  - unfold Qclt in *. unfold Qcdiv, Qcmult, Qcinv in *. cbn [this Q2Qc] in *. rewrite !Qred_correct.
    change (this 0) with 0%Q in *. apply Qlt_shift_div_l; [exact Hb|]. rewrite Qmult_0_l. exact H.
  - assert (a = a / b * b) as -> by (field; apply pos_neq, Hb). apply Qcmult_lt_0_le_reg_r with (z := / b) || idtac.
    unfold Qclt in *. unfold Qcdiv, Qcmult, Qcinv in *. cbn [this Q2Qc] in *. rewrite !Qred_correct in *.
    change (this 0) with 0%Q in *. apply Qmult_lt_0_compat; assumption.
Qed.

(* the window and the composition conserve mass *)
Notation conserving := (conserves kern kern2 ncell compose).

Lemma mean_ok throttle max_chunk interlaced ranks r : Forall aligned ranks -> (1 <= max_chunk)%Z -> (0 < ncell)%nat -> conserving ->
  trf throttle max_chunk interlaced true None ranks = Ok r ->
  (0 < aW r -> total ncell (cells r) = nq ncell * (qsum (map (fun p => w p * v p) (all_selected ranks)) / aW r)) /\
  (aW r <= 0 -> forall c, cells r c = 1).
Proof.
  intros HA HM HN (K1 & K2 & K3) E. destruct (to_real_field_ok throttle max_chunk interlaced true None ranks HA HM) as [(r' & f1 & f2 & E' & F1 & F2 & _ & _ & _ & B & _ & C)|[E' _]]; [|congruence].
  assert (r' = r) by congruence. subst r'. clear E'. pose proof (nq_pos ncell HN) as NP. split; intros HW.
  - apply (div_pos (aW r) (nq ncell) NP) in HW as HB. rewrite <- B in HB.
    rewrite (total_ext _ (fun c => raw interlaced None f1 f2 c / nbar r)).
    2:{ intros c. rewrite C. destruct (Qclt_le_dec 0 (nbar r)) as [L|L]; [reflexivity|]. exfalso. revert HB. apply Qcle_not_lt, L. }
    rewrite total_div, B.
    assert (total ncell (raw interlaced None f1 f2) = qsum (map (fun p => w p * v p) (all_selected ranks))) as ->.
    { unfold painted. assert (Z0 : total ncell fzero = 0) by apply qsum_map_zero. destruct interlaced; rewrite total_add, Z0.
      - rewrite K3, (total_ext f1 _ F1), (total_ext f2 _ (F2 eq_refl)), !total_deposit by assumption. replace (zq 2) with (1 + 1) by reflexivity. field. discriminate.
      - rewrite (total_ext f1 _ F1), total_deposit by assumption. ring. }
    field. split; apply pos_neq; assumption.
  - intros c. rewrite C. destruct (Qclt_le_dec 0 (nbar r)) as [L|L]; [|reflexivity]. rewrite B in L. apply (div_pos (aW r) (nq ncell) NP) in L.
    exfalso. revert L. apply Qcle_not_lt, HW.
Qed.

(* ---- painting on top of a field ---- *)
Lemma mean_one throttle max_chunk interlaced ranks r : Forall aligned ranks -> (1 <= max_chunk)%Z -> (0 < ncell)%nat -> conserving ->
  (forall k, In k ranks -> value k = None) ->
  trf throttle max_chunk interlaced true None ranks = Ok r -> 0 < aW r -> total ncell (cells r) = nq ncell.
Proof.
  intros HA HM HN HC HV HR HW. destruct (mean_ok _ _ _ _ _ HA HM HN HC HR) as [H _]. rewrite (H HW).
  assert (aW r = qsum (map w (all_selected ranks))) as EW.
  { destruct (to_real_field_ok throttle max_chunk interlaced true None ranks HA HM) as [(r' & f1 & f2 & HR' & _ & _ & _ & HW' & _)|[HE _]]; congruence. }
  assert (qsum (map (fun p => w p * v p) (all_selected ranks)) = aW r) as ->.
  { rewrite EW. apply qsum_map_ext. intros p Hp. unfold all_selected in Hp. apply in_concat in Hp. destruct Hp as (x & Hx & Hp). apply in_map_iff in Hx. destruct Hx as (k & <- & Hk).
    unfold selected in Hp. apply in_map_iff in Hp. destruct Hp as (ip & <- & _). cbn. rewrite (HV k Hk). cbn. ring. }
  field. apply pos_neq, HW.
Qed.

Definition shifted_by (d : field) (s s' : state) : Prop :=
  (forall c, real1 s c = d c + real1 s' c) /\ real2 s = real2 s' /\ locals s = locals s'.
Lemma loop_shift throttle max_chunk ranks nmax d : forall fuel attempt i chunksize s s', shifted_by d s s' ->
  (exists o o', loop P kern kern2 fuel throttle attempt max_chunk false ranks nmax i chunksize s = Ok o /\
     loop P kern kern2 fuel throttle attempt max_chunk false ranks nmax i chunksize s' = Ok o' /\ shifted_by d o o') \/
  (exists e, loop P kern kern2 fuel throttle attempt max_chunk false ranks nmax i chunksize s = Err e /\
     loop P kern kern2 fuel throttle attempt max_chunk false ranks nmax i chunksize s' = Err e).
Proof.
  induction fuel as [|fuel IH]; intros attempt i chunksize s s' H; cbn [loop]; destruct (i <? nmax)%Z; eauto 8.
  destruct (rall _) as [parts|e]; cbn [rbind]; [|eauto]. destruct (throttle attempt).
  - destruct (chunksize / 2 <? 1)%Z; [eauto|]. apply IH, H.
  - apply IH. destruct H as (H1 & H2 & H3). split; [|split]; cbn; [|exact H2|congruence].
    intros c. rewrite !paint_all_deposit, H1. ring.
Qed.
Lemma out_add throttle max_chunk interlaced f ranks :
  (exists r r0, trf throttle max_chunk interlaced false (Some f) ranks = Ok r /\
     trf throttle max_chunk interlaced false None ranks = Ok r0 /\
     (forall c, cells r c = f c + cells r0 c) /\
     aN r = aN r0 /\ aW r = aW r0 /\ aW2 r = aW2 r0 /\ nbar r = nbar r0 /\ shotnoise r = shotnoise r0) \/
  (exists e, trf throttle max_chunk interlaced false (Some f) ranks = Err e /\ trf throttle max_chunk interlaced false None ranks = Err e).
Proof.
  unfold to_real_field. destruct interlaced.
  - destruct (loop _ _ _ _ _ _ _ _ _ _ _ _ _) as [s|e]; cbn [rbind]; [|eauto]. left. eexists. eexists. split; [reflexivity|]. split; [reflexivity|].
    cbn. repeat split. intros c. unfold fadd, fzero. ring.
  - set (nmax := fold_right _ _ _). set (s1 := {| real1 := f; real2 := _; locals := _ |}). set (s2 := {| real1 := fzero; real2 := _; locals := _ |}).
    destruct (loop_shift throttle max_chunk ranks nmax f (paint_fuel nmax max_chunk) 0 0 max_chunk s1 s2) as [(o & o' & E1 & E2 & H1 & H2 & H3)|(e & E1 & E2)].
    + split; [|split; reflexivity]. intros c. cbn. unfold fzero. ring.
    + left. rewrite E1, E2. cbn [rbind]. eexists. eexists. split; [reflexivity|]. split; [reflexivity|]. cbn. rewrite H3. repeat split. exact H1.
    + right. exists e. rewrite E1, E2. split; reflexivity.
Qed.
Lemma normalize_of throttle max_chunk interlaced out ranks r0 : trf throttle max_chunk interlaced false out ranks = Ok r0 ->
  exists r, trf throttle max_chunk interlaced true out ranks = Ok r /\
    aN r = aN r0 /\ aW r = aW r0 /\ aW2 r = aW2 r0 /\ nbar r = nbar r0 /\ shotnoise r = shotnoise r0 /\
    (0 < nbar r0 -> forall c, cells r c = cells r0 c / nbar r0).
Proof.
  unfold to_real_field. destruct (loop _ _ _ _ _ _ _ _ _ _ _ _ _) as [s|e]; cbn [rbind]; [|discriminate]. intros H.
  match type of H with Ok ?x = Ok _ => assert (r0 = x) by congruence; subst r0; clear H end.
  eexists. split; [reflexivity|]. cbn. repeat split. intros HB c. unfold qpos. destruct (Qclt_le_dec _ _) as [L|L]; [reflexivity|].
  exfalso. revert HB. apply Qcle_not_lt, L.
Qed.

(* ---- species ---- *)
Lemma species_loop_ok max_chunk interlaced : (1 <= max_chunk)%Z -> forall l : list (species P), Forall (fun s => Forall aligned (snd s)) l ->
  forall real acc,
  (exists real' rs rs0, species_loop P kern kern2 ncell volume compose max_chunk interlaced l real acc = Ok (real', acc ++ rs) /\
     Forall2 (fun s r0 => trf (fst s) max_chunk interlaced false None (snd s) = Ok r0) l rs0 /\
     Forall2 (fun r r0 => aN r = aN r0 /\ aW r = aW r0 /\ aW2 r = aW2 r0 /\ nbar r = nbar r0 /\ shotnoise r = shotnoise r0) rs rs0 /\
     (forall c, real' c = real c + qsum (map (fun r0 => cells r0 c) rs0))) \/
  (species_loop P kern kern2 ncell volume compose max_chunk interlaced l real acc = Err RuntimeError /\ exists s a, In s l /\ fst s a = true).
Proof.
  intros HM. induction l as [|[thr ranks] l IH]; intros HA real acc; cbn [species_loop].
  - left. exists real, [], []. rewrite app_nil_r. repeat split; try constructor. intros c. cbn [map]. rewrite qsum_nil. ring.
  - inversion HA as [|? ? H1 H2]; subst. cbn [snd] in H1.
    destruct (out_add thr max_chunk interlaced real ranks) as [(r & r0 & E & E0 & C & A)|(e & E & E0)]; rewrite E; cbn [rbind].
    + destruct (IH H2 (cells r) (acc ++ [r])) as [(real' & rs & rs0 & EL & F1 & F2 & CC)|(EL & s & a & Hin & Ha)]; rewrite EL.
      * left. exists real', (r :: rs), (r0 :: rs0). split; [rewrite <- app_assoc; reflexivity|]. split; [constructor; assumption|]. split; [constructor; assumption|].
        intros c. rewrite CC, C. cbn [map]. rewrite qsum_cons. ring.
      * right. split; [reflexivity|]. exists s, a. split; [right; exact Hin|exact Ha].
    + right. destruct (to_real_field_ok thr max_chunk interlaced false (Some real) ranks H1 HM) as [(x & ? & ? & EX & _)|[EX [a Ha]]].
      * congruence.
      * assert (e = RuntimeError) as -> by congruence. split; [reflexivity|]. exists (thr, ranks), a. split; [left; reflexivity|exact Ha].
Qed.

Lemma Forall2_map_eq {A B C} (f : A -> C) (g : B -> C) la lb : Forall2 (fun a b => f a = g b) la lb -> map f la = map g lb.
Proof. induction 1; cbn [map]; congruence. Qed.
Lemma Forall2_impl' {A B} (R S : A -> B -> Prop) la lb : (forall a b, R a b -> S a b) -> Forall2 R la lb -> Forall2 S la lb.
Proof. intros H. induction 1; constructor; auto. Qed.

(* the shot noise of one species is computed from its sums *)
Lemma shot_of throttle max_chunk interlaced normalize out ranks r : trf throttle max_chunk interlaced normalize out ranks = Ok r ->
  aW r <> 0 -> shotnoise r = Some (volume * (aW2 r / (aW r * aW r))) .
Proof.
  unfold to_real_field. destruct (loop _ _ _ _ _ _ _ _ _ _ _ _ _) as [s|e]; cbn [rbind]; [|discriminate]. intros H HW.
  match type of H with Ok ?x = Ok _ => assert (r = x) by congruence; subst r; clear H end.
  cbn [shotnoise aW aW2] in *. unfold qdiv. destruct (Qc_eq_dec _ 0) as [E|E]; [|reflexivity]. apply Qcmult_integral in E. destruct E; contradiction.
Qed.
Lemma nbar_of throttle max_chunk interlaced normalize out ranks r : trf throttle max_chunk interlaced normalize out ranks = Ok r -> nbar r = aW r / nq ncell.
Proof.
  unfold to_real_field. destruct (loop _ _ _ _ _ _ _ _ _ _ _ _ _) as [s|e]; cbn [rbind]; [|discriminate]. intros H.
  match type of H with Ok ?x = Ok _ => assert (r = x) by congruence; subst r; clear H end. reflexivity.
Qed.
Lemma shot_fold T rs : T <> 0 -> Forall (fun r => aW r <> 0 /\ shotnoise r = Some (volume * (aW2 r / (aW r * aW r)))) rs -> forall x,
  fold_left (fun acc r => oplus acc (match qdiv (aW r) T, shotnoise r with Some x, Some p => Some (x * x * p) | _, _ => None end)) rs (Some x)
  = Some (x + volume * (qsum (map aW2 rs) / (T * T))).
Proof.
  intros HT. induction 1 as [|r rs [H1 H2] F IH]; intros x; cbn [fold_left map].
  - rewrite qsum_nil. f_equal. field. exact HT.
  - rewrite H2. unfold qdiv at 2. destruct (Qc_eq_dec T 0); [contradiction|]. cbn [oplus]. rewrite IH. f_equal. rewrite qsum_cons. field. split; assumption.
Qed.

Lemma species_ok max_chunk interlaced (l : list (species P)) : (1 <= max_chunk)%Z -> (0 < ncell)%nat -> Forall (fun s => Forall aligned (snd s)) l ->
  (exists R rs, species_field P kern kern2 ncell volume compose max_chunk interlaced true l = Ok R /\
     Forall2 (fun s r => trf (fst s) max_chunk interlaced true None (snd s) = Ok r) l rs /\
     s_N R = fold_right Z.add 0%Z (map aN rs) /\
     (Forall (fun r => 0 < aW r) rs -> forall c, s_cells R c = qsum (map (fun r => aW r / qsum (map aW rs) * cells r c) rs)) /\
     (Forall (fun r => aW r <> 0) rs -> qsum (map aW rs) <> 0 ->
        s_shotnoise R = Some (volume * (qsum (map aW2 rs) / (qsum (map aW rs) * qsum (map aW rs)))))) \/
  (species_field P kern kern2 ncell volume compose max_chunk interlaced true l = Err RuntimeError /\ exists s a, In s l /\ fst s a = true).
Proof.
  intros HM HN HA. unfold species_field.
  destruct (species_loop_ok max_chunk interlaced HM l HA fzero []) as [(real & rs & rs0 & E & F1 & F2 & C)|(E & HT)]; rewrite E; cbn [rbind]; [|right; split; auto].
  left. cbn [app].
  (* the normalised results of the species on their own *)
  assert (exists rn, Forall2 (fun s r => trf (fst s) max_chunk interlaced true None (snd s) = Ok r) l rn /\
     Forall2 (fun r0 r => aN r = aN r0 /\ aW r = aW r0 /\ aW2 r = aW2 r0 /\ nbar r = nbar r0 /\ shotnoise r = shotnoise r0 /\ nbar r0 = aW r0 / nq ncell /\
        (0 < nbar r0 -> forall c, cells r c = cells r0 c / nbar r0)) rs0 rn /\
     Forall (fun r => aW r <> 0 -> shotnoise r = Some (volume * (aW2 r / (aW r * aW r)))) rn) as (rn & G1 & G2 & G3).
  { clear -F1. induction F1 as [|s r0 l rs0 H F IH]; [exists []; repeat constructor|]. destruct IH as (rn & I1 & I2 & I3).
    destruct (normalize_of _ _ _ _ _ _ H) as (r & Er & A1 & A2 & A3 & A4 & A5 & A6). exists (r :: rn).
    split; [constructor; assumption|]. split; [|constructor; [apply (shot_of _ _ _ _ _ _ _ Er)|exact I3]].
    constructor; [|exact I2]. pose proof (nbar_of _ _ _ _ _ _ _ H). auto 10. }
  assert (MW : map aW rs = map aW rn /\ map aN rs = map aN rn /\ map aW2 rs = map aW2 rn /\ map shotnoise rs = map shotnoise rn /\ map nbar rs = map nbar rn).
  { assert (Forall2 (fun a b => aN a = aN b /\ aW a = aW b /\ aW2 a = aW2 b /\ nbar a = nbar b /\ shotnoise a = shotnoise b) rs rn) as H.
    { clear -F2 G2. revert rn G2. induction F2 as [|a b rs rs0 H F IH]; intros rn G2; inversion G2; subst; constructor; [intuition congruence|apply IH; assumption]. }
    clear -H. induction H as [|a b rs rn (A1 & A2 & A3 & A4 & A5) F IH]; [repeat split|]. cbn [map]. intuition congruence. }
  destruct MW as (M1 & M2 & M3 & M4 & M5).
  eexists. exists rn. split; [reflexivity|]. split; [exact G1|]. cbn [s_N s_cells s_shotnoise]. split; [rewrite M2; reflexivity|]. split.
  - intros HP c. rewrite C, M5. unfold fzero.
    assert (NC : 0 < nq ncell) by (apply nq_pos, HN).
    assert (NB : map nbar rn = map (fun r => / nq ncell * aW r) rn).
    { clear -G2. induction G2 as [|a b rs0 rn (A1 & A2 & A3 & A4 & A5 & A6 & _) G IH]; [reflexivity|]. cbn [map].
      rewrite IH, A4, A6, A2. f_equal. unfold Qcdiv. ring. }
    rewrite NB, qsum_map_scale. set (T := qsum (map aW rn)).
    assert (CE : map (fun r0 => cells r0 c) rs0 = map (fun r => / nq ncell * (aW r * cells r c)) rn).
    { clear -G2 HP NC. revert HP. induction G2 as [|a b rs0 rn (A1 & A2 & A3 & A4 & A5 & A6 & A7) G IH]; intros HP; [reflexivity|]. inversion HP; subst. cbn [map].
      f_equal; [|apply IH; assumption]. assert (0 < nbar a) as NA by (rewrite A6, <- A2; apply div_pos; assumption).
      rewrite (A7 NA), A6, A2. field. split; apply pos_neq; first [exact NC|rewrite <- A2; assumption]. }
    rewrite CE, qsum_map_scale.
    rewrite (qsum_map_ext (fun r => aW r / T * cells r c) (fun r => / T * (aW r * cells r c))) by (intros; unfold Qcdiv; ring).
    rewrite qsum_map_scale. destruct (Qc_eq_dec T 0) as [Z0|NZ].
    + (* only without species *)
      destruct rn as [|r rn]; [cbn [map]; rewrite qsum_nil; unfold Qcdiv; ring|].
      exfalso. assert (0 < T); [|rewrite Z0 in H; revert H; apply Qcle_not_lt, Qcle_refl].
      unfold T. clear -HP. inversion HP as [|? ? H1 H2]; subst. cbn [map]. rewrite qsum_cons.
      assert (0 <= qsum (map aW rn)) as HQ.
      { clear -H2. induction H2 as [|a l H F IH]; [apply Qcle_refl|]. cbn [map]. rewrite qsum_cons. rewrite <- (Qcplus_0_l 0). apply Qcplus_le_compat; [apply Qclt_le_weak, H|exact IH]. }
      apply Qclt_le_trans with (aW r); [exact H1|]. rewrite <- (Qcplus_0_r (aW r)) at 1. apply Qcplus_le_compat; [apply Qcle_refl|exact HQ].
    + field. split; first [exact NZ|apply pos_neq, NC].
  - intros HN0 HT0. rewrite M1. 
    assert (FE : forall T, fold_left (fun acc r => oplus acc (match qdiv (aW r) T, shotnoise r with Some x, Some p => Some (x * x * p) | _, _ => None end)) rs (Some 0)
        = fold_left (fun acc r => oplus acc (match qdiv (aW r) T, shotnoise r with Some x, Some p => Some (x * x * p) | _, _ => None end)) rn (Some 0)).
    { intros T. clear -M1 M4. generalize (Some 0) as z. revert rn M1 M4. induction rs as [|a rs IH]; intros [|b rn] M1 M4 z; try discriminate; [reflexivity|].
      cbn [map] in M1, M4. cbn [fold_left]. assert (aW a = aW b) as -> by congruence. assert (shotnoise a = shotnoise b) as -> by congruence.
      apply IH; congruence. }
    rewrite FE, (shot_fold _ rn HT0).
    + f_equal. ring.
    + clear -HN0 G3. induction HN0; inversion G3; subst; constructor; auto.
Qed.

Lemma total_scale a f : total ncell (fun c => a * f c) = a * total ncell f.
Proof. apply qsum_map_scale. Qed.
Lemma species_mean max_chunk interlaced (l : list (species P)) R rs : (1 <= max_chunk)%Z -> (0 < ncell)%nat ->
  Forall (fun s => Forall aligned (snd s)) l -> conserving ->
  (forall s p, In s l -> In p (all_selected (snd s)) -> v p = 1) -> l <> [] ->
  species_field P kern kern2 ncell volume compose max_chunk interlaced true l = Ok R ->
  Forall2 (fun s r => trf (fst s) max_chunk interlaced true None (snd s) = Ok r) l rs -> Forall (fun r => 0 < aW r) rs ->
  total ncell (s_cells R) = nq ncell.
Proof.
  intros HM HN HA HC HV HL E F HP.
  destruct (species_ok max_chunk interlaced l HM HN HA) as [(R' & rs' & E' & F' & _ & C & _)|[E' _]]; [|congruence].
  assert (R' = R) by congruence. subst R'.
  assert (rs' = rs) as ->. { clear -F F'. revert rs' F'. induction F as [|s r l rs H F IH]; intros rs' F'; inversion F'; subst; [reflexivity|]. f_equal; [congruence|apply IH; assumption]. }
  rewrite (total_ext _ _ (C HP)). unfold total at 1. set (T := qsum (map aW rs)).
  rewrite (qsum_swap (fun c r => aW r / T * cells r c)).
  assert (TP : rs <> [] -> 0 < T).
  { unfold T. clear -HP. destruct HP as [|r rs H1 H2]; [congruence|]. intros _. cbn [map]. rewrite qsum_cons.
    assert (0 <= qsum (map aW rs)) as HQ.
    { induction H2 as [|a l H F IH]; [apply Qcle_refl|]. cbn [map]. rewrite qsum_cons. apply Qcle_trans with (0 + 0); [apply Qcle_refl|]. apply Qcplus_le_compat; [apply Qclt_le_weak, H|exact IH]. }
    apply Qclt_le_trans with (aW r); [exact H1|]. rewrite <- (Qcplus_0_r (aW r)) at 1. apply Qcplus_le_compat; [apply Qcle_refl|exact HQ]. }
  rewrite (qsum_map_ext _ (fun r => nq ncell / T * aW r)).
  - rewrite qsum_map_scale. fold T. field. apply pos_neq, TP. intros Hn. rewrite Hn in F. destruct l; [apply HL; reflexivity|inversion F].
  - intros r Hr. rewrite qsum_map_scale. fold (total ncell (cells r)).
    assert (exists s, In s l /\ trf (fst s) max_chunk interlaced true None (snd s) = Ok r) as (s & Hs & Es).
    { clear -F Hr. induction F as [|s r' l rs H F IH]; [destruct Hr|]. destruct Hr as [->|Hr]; [exists s; split; [left; reflexivity|exact H]|].
      destruct (IH Hr) as (s' & H1 & H2). exists s'. split; [right; exact H1|exact H2]. }
    rewrite Forall_forall in HP, HA. destruct (mean_ok _ _ _ _ _ (HA s Hs) HM HN HC Es) as [M _]. rewrite (M (HP r Hr)).
    destruct (to_real_field_ok (fst s) max_chunk interlaced true None (snd s) (HA s Hs) HM) as [(r' & ? & ? & E1 & _ & _ & _ & EW & _)|[E1 _]]; [|congruence].
    assert (r' = r) by congruence. subst r'.
    rewrite (qsum_map_ext (fun p => w p * v p) w) by (intros p Hp; rewrite (HV s p Hs Hp); ring). rewrite <- EW.
    field. split; apply pos_neq; [apply TP; intros Hn; rewrite Hn in Hr; destruct Hr|apply HP, Hr].
Qed.
End PaintProofs.
