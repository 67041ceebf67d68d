From Coq Require Import Ascii String.
From Verif Require Import Base BaseProofs TxtModel TxtSpec.
Local Open Scope nat_scope.
Local Notation length := List.length.
Local Notation concat := List.concat.

(* ---- words and lines ---- *)
Lemma split_word w : Forall (fun c => is_space c = false) w -> forall cur r, split_go cur (w ++ r) = split_go (cur ++ w) r.
Proof. induction 1 as [|c w H _ IH]; intros cur r; cbn [app split_go]; [rewrite app_nil_r; reflexivity|]. rewrite H, IH, <- app_assoc. reflexivity. Qed.
Lemma flush_good w : w <> [] -> flush w = [w].
Proof. destruct w; [contradiction|reflexivity]. Qed.
Lemma split_line l : Forall good l -> split (line l) = l.
Proof.
  unfold split, line. induction 1 as [|w l [H1 H2] F IH]; [reflexivity|]. destruct l as [|v l].
  - cbn [words]. rewrite split_word by exact H2. cbn [app split_go]. change (is_space newline) with true. cbv iota. rewrite flush_good by exact H1. reflexivity.
  - change (words (w :: v :: l)) with (w ++ space :: words (v :: l)). rewrite <- app_assoc, split_word by exact H2. cbn [app split_go]. change (is_space space) with true. cbv iota.
    rewrite flush_good by exact H1. cbn [app]. f_equal. exact IH.
Qed.
Lemma split_comment l : Forall good l -> split (space :: line l) = l.
Proof. intros H. unfold split. cbn [split_go]. change (is_space space) with true. cbv iota. cbn [flush app]. apply split_line, H. Qed.
Lemma prefix_iff a : forall b, prefix a b = true <-> exists y, b = a ++ y.
Proof.
  induction a as [|x a IH]; intros b; cbn [prefix app]; [split; [intros _; exists b; reflexivity|auto]|].
  destruct b as [|y b]; [split; [discriminate|intros [y H]; discriminate]|]. rewrite andb_true_iff, IH, Ascii.eqb_eq. split.
  - intros [-> [z ->]]. exists z. reflexivity.
  - intros [z H]. injection H as -> ->. split; [reflexivity|exists z; reflexivity].
Qed.
Lemma contains_iff a b : contains a b = true <-> occurs a b.
Proof.
  unfold occurs. induction b as [|c b IH]; cbn [contains]; rewrite orb_true_iff, prefix_iff.
  - split; [intros [[y H]|H]; [exists [], y; exact H|discriminate]|]. intros (x & y & H). left. destruct x; [exists y; exact H|discriminate].
  - rewrite IH. split.
    + intros [[y H]|(x & y & H)]; [exists [], y; exact H|exists (c :: x), y; rewrite H; reflexivity].
    + intros ([|d x] & y & H); [left; exists y; exact H|right]. cbn [app] in H. injection H as -> ->. exists x, y. reflexivity.
Qed.
Lemma contains_not a b : ~ occurs a b -> contains a b = false.
Proof. intros H. destruct (contains a b) eqn:E; [apply contains_iff in E; contradiction|reflexivity]. Qed.
Lemma app_mid {A} (x y a b : list A) : x ++ y = a ++ b -> (exists m, a = x ++ m /\ y = m ++ b) \/ (exists m, x = a ++ m /\ b = m ++ y).
Proof.
  revert a. induction x as [|c x IH]; intros a H; [left; exists a; auto|]. destruct a as [|d a]; [right; exists (c :: x); split; [reflexivity|symmetry; exact H]|].
  cbn [app] in H. injection H as -> H. destruct (IH a H) as [(m & -> & ->)|(m & -> & ->)]; [left|right]; exists m; auto.
Qed.
Lemma occurs_sep a x c y : ~ In c a -> occurs a (x ++ c :: y) -> occurs a x \/ occurs a y.
Proof.
  intros N (p & q & H). destruct (app_mid _ _ _ _ H) as [(m & -> & E)|(m & -> & E)].
  - destruct m as [|d m].
    + cbn [app] in E. destruct a as [|e a]; [left; exists [], x; reflexivity|]. cbn [app] in E. injection E as -> _. exfalso. apply N. left. reflexivity.
    + cbn [app] in E. injection E as _ ->. right. exists m, q. reflexivity.
  - symmetry in E. destruct (app_mid _ _ _ _ E) as [(k & -> & E2)|(k & E2 & ->)].
    + destruct k as [|d k]; [rewrite app_nil_r; left; exists p, []; rewrite app_nil_r; reflexivity|]. cbn [app] in E2. injection E2 as -> _. exfalso. apply N. apply in_or_app. right. left. reflexivity.
    + left. subst m. exists p, k. reflexivity.
Qed.
Lemma occurs_end a x c : ~ In c a -> a <> [] -> occurs a (x ++ [c]) -> occurs a x.
Proof. intros N NE H. destruct (occurs_sep a x c [] N H) as [H1|(p & q & E)]; [exact H1|]. destruct p; [|discriminate]. destruct a; [contradiction|discriminate]. Qed.
Lemma occurs_words a l : ~ In space a -> a <> [] -> occurs a (words l) -> exists w, In w l /\ occurs a w.
Proof.
  intros N NE. induction l as [|w l IH]; intros H; [destruct H as (p & q & E); destruct p; [|discriminate]; destruct a; [contradiction|discriminate]|].
  destruct l as [|v l]; [exists w; split; [left; reflexivity|exact H]|]. change (words (w :: v :: l)) with (w ++ space :: words (v :: l)) in H.
  destruct (occurs_sep _ _ _ _ N H) as [H1|H1]; [exists w; split; [left; reflexivity|exact H1]|]. destruct (IH H1) as (u & Hu & Ho). exists u. split; [right; exact Hu|exact Ho].
Qed.
Lemma occurs_line a l : ~ In space a -> ~ In newline a -> a <> [] -> occurs a (space :: line l) -> exists w, In w l /\ occurs a w.
Proof.
  intros N1 N2 NE H. destruct (occurs_sep a [] space (line l) N1 H) as [(p & q & E)|H1]; [destruct p; [|discriminate]; destruct a; [contradiction|discriminate]|].
  apply (occurs_words a l N1 NE). apply (occurs_end a _ newline N2 NE). exact H1.
Qed.
Lemma ends_with_iff a b : ends_with a b = true <-> exists x, b = x ++ a.
Proof.
  unfold ends_with. rewrite prefix_iff. split.
  - intros [y H]. exists (rev y). rewrite <- (rev_involutive b), H, rev_app_distr, rev_involutive. reflexivity.
  - intros [x ->]. exists (rev x). apply rev_app_distr.
Qed.
Lemma ends_occurs a b : ends_with a b = true -> occurs a b.
Proof. intros H. apply ends_with_iff in H as [x ->]. exists x, []. rewrite app_nil_r. reflexivity. Qed.
Lemma before_ok a c r w : a = c :: r -> ~ In c r -> ~ occurs a w -> before a (w ++ a) = w.
Proof.
  intros EA N. induction w as [|d w IH]; intros H.
  - cbn [app]. destruct a as [|x a']; [discriminate|]. cbn [before]. replace (prefix (x :: a') (x :: a')) with true; [reflexivity|]. symmetry. apply prefix_iff. exists []. rewrite app_nil_r. reflexivity.
  - cbn [app before]. destruct (prefix a (d :: w ++ a)) eqn:E.
    + exfalso. apply prefix_iff in E as [y E]. destruct (app_mid (d :: w) a a y E) as [(m & E1 & E2)|(m & E1 & E2)].
      * rewrite EA in E1. cbn [app] in E1. injection E1 as Ed Er. destruct m as [|e m]; [apply H; exists [], []; rewrite EA, Er, !app_nil_r, Ed; reflexivity|].
        rewrite EA in E2. cbn [app] in E2. injection E2 as Ee _. apply N. rewrite Er. apply in_or_app. right. left. symmetry. exact Ee.
      * apply H. exists [], m. rewrite E1. reflexivity.
    + f_equal. apply IH. intros (x & y & Hx). apply H. exists (d :: x), y. rewrite Hx. reflexivity.
Qed.

(* ---- dictionaries ---- *)
Lemma word_eqb_iff a b : word_eqb a b = true <-> a = b.
Proof. unfold word_eqb. destruct (list_eq_dec ascii_dec a b); split; auto; discriminate. Qed.
Lemma word_eqb_neq a b : a <> b -> word_eqb a b = false.
Proof. intros H. destruct (word_eqb a b) eqn:E; [apply word_eqb_iff in E; contradiction|reflexivity]. Qed.
Lemma dput_new {W} k (v : W) d : ~ In k (map fst d) -> dput k v d = d ++ [(k, v)].
Proof. induction d as [|[k' v'] d IH]; intros H; [reflexivity|]. cbn [dput map fst In] in *. rewrite word_eqb_neq by (intros ->; apply H; left; reflexivity). rewrite IH by tauto. reflexivity. Qed.
Lemma dfind_none {W} k (d : dict W) : ~ In k (map fst d) -> dfind k d = None.
Proof. induction d as [|[k' v'] d IH]; intros H; [reflexivity|]. cbn [dfind map fst In] in *. rewrite word_eqb_neq by (intros ->; apply H; left; reflexivity). apply IH. tauto. Qed.

Lemma rall_forall2 {A B} (f : A -> res B) l xs : Forall2 (fun a x => f a = Ok x) l xs -> rall (map f l) = Ok xs.
Proof. induction 1 as [|a x l xs H _ IH]; [reflexivity|]. cbn [map rall]. rewrite H. cbn [rbind]. rewrite IH. reflexivity. Qed.

Section Text.
Context {F V : Type}.
Variable to_float : word -> option F.
Variable to_int : word -> option Z.
Variable cast_other : word -> word -> res V.
Let P (w : word) (x : F) : Prop := to_float w = Some x.

Lemma floats l xs : Forall2 P l xs -> rall (map (float to_float) l) = Ok xs.
Proof. intros H. apply rall_forall2. induction H as [|w x l xs H _ IH]; constructor; [unfold float; rewrite H; reflexivity|exact IH]. Qed.

(* ---- columns ---- *)
Definition rows_of (n off : nat) (t : table) (rows : list (list F)) : Prop :=
  Forall2 (fun i r => exists p q, r = p ++ q /\ length p = off /\ Forall2 P (flat_map (fields_of i) t) q) (seq 0 n) rows.
Lemma col_ok off (g : nat -> word) is rows : Forall2 (fun i r => exists p x q, r = p ++ x :: q /\ length p = off /\ P (g i) x) is rows ->
  exists xs, col rows off = Ok xs /\ Forall2 P (map g is) xs.
Proof.
  induction 1 as [|i r is rows (p & x & q & E & L & H) _ (xs & E1 & E2)]; [exists []; split; [reflexivity|constructor]|].
  unfold col in *. cbn [map rall]. rewrite E, nth_error_app2 by lia. rewrite L, Nat.sub_diag. cbn [nth_error rbind]. rewrite E1. exists (x :: xs). split; [reflexivity|]. constructor; assumption.
Qed.
Lemma map_nth_seq {A} (l : list A) d : map (fun i => nth i l d) (seq 0 (length l)) = l.
Proof. induction l as [|a l IH]; [reflexivity|]. cbn [length seq map nth]. f_equal. rewrite <- seq_shift, map_map. exact IH. Qed.
Lemma Forall2_impl' {A B} (R S : A -> B -> Prop) l m : (forall a b, R a b -> S a b) -> Forall2 R l m -> Forall2 S l m.
Proof. intros H. induction 1; constructor; auto. Qed.
Lemma make_columns_ok n rows : forall t off d, rows_of n off t rows -> Forall (fun nc => good_name (fst nc) /\ size (snd nc) = n /\ Forall good (texts (snd nc))) t ->
  NoDup (map fst t) -> (forall k, In k (map fst t) -> ~ In k (map fst d)) ->
  exists d', make_columns rows (flat_map names_of t) off d = Ok (d ++ d') /\ reads to_float t d'.
Proof.
  induction t as [|[name c] t IH]; intros off d HR HG ND DIS.
  - exists []. cbn [flat_map make_columns]. rewrite app_nil_r. split; [reflexivity|constructor].
  - destruct (Forall_inv HG) as (GN & SZ & GT). pose proof (Forall_inv_tail HG) as HG'. cbn [fst snd] in *. cbn [map fst] in ND, DIS. apply NoDup_cons_iff in ND as [NI ND']. destruct GN as [GW GR].
    destruct c as [l|l]; cbn [size] in SZ.
    + destruct (col_ok off (fun i => nth i l []) (seq 0 n) rows) as (xs & E1 & E2).
      { eapply Forall2_impl'; [|exact HR]. intros i r (p & q & E & L & H). cbn [flat_map fields_of snd app] in H. inversion H as [|? x ? q' H1 H2]; subst. exists p, x, q'. auto. }
      rewrite <- SZ, map_nth_seq in E2.
      destruct (IH (off + 1) (d ++ [(name, Real xs)])) as (d' & E3 & E4).
      { eapply Forall2_impl'; [|exact HR]. intros i r (p & q & E & L & H). cbn [flat_map fields_of snd app] in H. inversion H as [|? x ? q' H1 H2]; subst. exists (p ++ [x]), q'. rewrite <- app_assoc, app_length. cbn [length app]. auto. }
      { exact HG'. } { exact ND'. }
      { intros k Hk Hi. rewrite map_app in Hi. apply in_app_or in Hi as [Hi|[Hi|[]]]; [apply (DIS k (or_intror Hk) Hi)|]. cbn [fst] in Hi. subst k. contradiction. }
      exists ((name, Real xs) :: d'). split; [|constructor; [split; [reflexivity|exact E2]|exact E4]].
      change (flat_map names_of ((name, TReal l) :: t)) with (name :: flat_map names_of t).
      assert (NR : ends_with (lit ".real") name = false) by (destruct (ends_with (lit ".real") name) eqn:E; [exfalso; apply GR, ends_occurs, E|reflexivity]).
      rewrite <- app_assoc in E3. cbn [app] in E3. rewrite <- E3. cbn [make_columns]. rewrite NR. cbn [andb]. rewrite E1. cbn [rbind]. rewrite (dput_new name (Real xs) d) by (apply DIS; left; reflexivity).
      destruct (flat_map names_of t); reflexivity.
    + assert (E2' : exists xs ys, (col rows off = Ok xs /\ Forall2 P (map (fun i => fst (nth i l ([], []))) (seq 0 n)) xs) /\ (col rows (off + 1) = Ok ys /\ Forall2 P (map (fun i => snd (nth i l ([], []))) (seq 0 n)) ys)).
      { destruct (col_ok off (fun i => fst (nth i l ([], []))) (seq 0 n) rows) as (xs & E1 & E2).
        { eapply Forall2_impl'; [|exact HR]. intros i r (p & q & E & L & H). cbn [flat_map fields_of snd app] in H. inversion H as [|? x ? q' H1 H2]; subst. exists p, x, q'. auto. }
        destruct (col_ok (off + 1) (fun i => snd (nth i l ([], []))) (seq 0 n) rows) as (ys & E3 & E4).
        { eapply Forall2_impl'; [|exact HR]. intros i r (p & q & E & L & H). cbn [flat_map fields_of snd app] in H. inversion H as [|? x ? q' H1 H2]; subst. inversion H2 as [|? y ? q'' H3 H4]; subst.
          exists (p ++ [x]), y, q''. rewrite <- app_assoc, app_length. cbn [length app]. auto. }
        exists xs, ys. auto. }
      destruct E2' as (xs & ys & [E1 E2] & [E3 E4]).
      destruct (IH (off + 2) (d ++ [(name, Complex (combine xs ys))])) as (d' & E5 & E6).
      { eapply Forall2_impl'; [|exact HR]. intros i r (p & q & E & L & H). cbn [flat_map fields_of snd app] in H. inversion H as [|? x ? q' H1 H2]; subst. inversion H2 as [|? y ? q'' H3 H4]; subst.
        exists (p ++ [x; y]), q''. rewrite <- app_assoc, app_length. cbn [length app]. auto. }
      { exact HG'. } { exact ND'. }
      { intros k Hk Hi. rewrite map_app in Hi. apply in_app_or in Hi as [Hi|[Hi|[]]]; [apply (DIS k (or_intror Hk) Hi)|]. cbn [fst] in Hi. subst k. contradiction. }
      exists ((name, Complex (combine xs ys)) :: d'). split.
      * change (flat_map names_of ((name, TComplex l) :: t)) with ((name ++ lit ".real") :: (name ++ lit ".imag") :: flat_map names_of t). cbn [make_columns].
        replace (ends_with (lit ".real") (name ++ lit ".real")) with true by (symmetry; apply ends_with_iff; exists name; reflexivity).
        replace (ends_with (lit ".imag") (name ++ lit ".imag")) with true by (symmetry; apply ends_with_iff; exists name; reflexivity). cbn [andb]. rewrite E1. cbn [rbind]. rewrite E3. cbn [rbind].
        rewrite (before_ok (lit ".real") "."%char (lit "real") name) by (auto; try exact GR; intros HI; repeat (destruct HI as [HI|HI]; [discriminate|]); exact HI).
        rewrite (dput_new name _ d) by (apply DIS; left; reflexivity). rewrite E5, <- app_assoc. reflexivity.
      * constructor; [|exact E6]. cbn [fst snd]. split; [reflexivity|]. cbn [means].
        assert (G : forall is xs ys, Forall2 P (map (fun i => fst (nth i l ([], []))) is) xs -> Forall2 P (map (fun i => snd (nth i l ([], []))) is) ys ->
          Forall2 (fun w x => to_float (fst w) = Some (fst x) /\ to_float (snd w) = Some (snd x)) (map (fun i => nth i l ([], [])) is) (combine xs ys)).
        { clear. induction is as [|i is IH]; intros xs ys H1 H2; cbn [map] in *; inversion H1; inversion H2; subst; cbn [combine]; constructor; [split; assumption|apply IH; assumption]. }
        rewrite <- (map_nth_seq l ([], [])), SZ. apply G; assumption.
Qed.

(* ---- meta-data ---- *)
Lemma read_metas_ok m vs : Forall2 (fun x v => (good (fst (fst x)) /\ good (snd (fst x)) /\ good (snd x)) /\ snd x <> lit "bool" /\ cast_other (snd x) (snd (fst x)) = Ok v /\
    ~ In (fst (fst x)) (map lit ["edges"; "columns"; "dims"; "data"; "self"; "coords"; "fields_to_sum"]%string)) m vs ->
  forall acc, NoDup (map (fun x => fst (fst x)) m) -> (forall x, In x m -> ~ In (fst (fst x)) (map fst acc)) ->
  read_metas cast_other (map meta_fields m) acc = Ok (acc ++ map (fun xv => (fst (fst (fst xv)), MOther (snd xv))) (combine m vs)).
Proof.
  induction 1 as [|[[k w] ty] v m vs H _ IH]; intros acc ND DIS; [rewrite app_nil_r; reflexivity|]. cbn [fst snd] in *. destruct H as (_ & NB & C & _).
  cbn [map read_metas fst snd]. change (meta_fields (k, w, ty)) with [k; w; ty]. unfold read_meta, last_field, field. cbn [rev app nth_error rbind]. unfold cast_value. rewrite (word_eqb_neq ty) by exact NB. rewrite C. cbn [rbind].
  cbn [map fst] in ND. apply NoDup_cons_iff in ND as [NI ND]. rewrite dput_new by (apply (DIS (k, w, ty)); left; reflexivity). rewrite IH.
  - rewrite <- app_assoc. reflexivity.
  - exact ND.
  - intros x Hx Hi. rewrite map_app in Hi. apply in_app_or in Hi as [Hi|[Hi|[]]]; [apply (DIS x (or_intror Hx) Hi)|]. cbn [fst] in Hi. apply NI. rewrite Hi. apply (in_map (fun x => fst (fst x))). exact Hx.
Qed.
Lemma keys_of m (vs : list V) : length m = length vs -> map fst (map (fun xv => (fst (fst (fst xv)), @MOther V (snd xv))) (combine m vs)) = map (fun x : word * word * word => fst (fst x)) m.
Proof. revert vs. induction m as [|x m IH]; intros [|v vs] H; try discriminate; [reflexivity|]. cbn [combine map fst snd]. f_equal. apply IH. cbn [length] in H. lia. Qed.
Lemma has_not {W} k (d : dict W) : ~ In (lit k) (map fst d) -> has k d = false.
Proof. intros H. unfold has. rewrite dfind_none by exact H. reflexivity. Qed.
Lemma Forall2_len {A B} (R : A -> B -> Prop) l m : Forall2 R l m -> length l = length m.
Proof. induction 1; cbn [length]; congruence. Qed.
Lemma good_keys m vs a : good_meta cast_other m vs -> attrs_are m vs a -> forall k, In k (["edges"; "columns"; "dims"; "data"; "self"; "coords"; "fields_to_sum"]%string) -> ~ In (lit k) (map fst a).
Proof.
  intros [_ H] -> k Hk Hi. rewrite keys_of in Hi by (apply (Forall2_len _ _ _ H)). apply in_map_iff in Hi as (x & E & Hx).
  assert (G : exists v, ~ In (fst (fst x)) (map lit ["edges"; "columns"; "dims"; "data"; "self"; "coords"; "fields_to_sum"]%string) \/ v = x).
  { exists x. right. reflexivity. }
  clear G. revert Hx. induction H as [|y v m vs (_ & _ & _ & N) _ IH]; intros [].
  - subst y. apply N. rewrite E. apply in_map. exact Hk.
  - auto.
Qed.

(* ---- one dimension ---- *)
Variable itoa : nat -> word.
Hypothesis itoa_digits : forall n, digits (itoa n).
Hypothesis itoa_int : forall n, to_int (itoa n) = Some (Z.of_nat n).
Hypothesis no_hash : forall w, to_float (hash :: w) = None.
Lemma digit_char c : 48 <= nat_of_ascii c <= 57 -> is_space c = false.
Proof. intros H. unfold is_space. apply orb_false_iff. split; [apply Nat.eqb_neq; lia|]. apply andb_false_iff. right. apply Nat.leb_gt. lia. Qed.
Lemma itoa_good n : good (itoa n).
Proof. destruct (itoa_digits n) as [H1 H2]. split; [exact H1|]. eapply Forall_impl; [|exact H2]. intros c. apply digit_char. Qed.
Lemma itoa_free n a c : In c a -> ~ (48 <= nat_of_ascii c <= 57) -> ~ occurs a (itoa n).
Proof.
  intros Hc ND (x & y & E). destruct (itoa_digits n) as [_ H]. rewrite Forall_forall in H. apply ND, H. rewrite E. apply in_or_app. right. apply in_or_app. left. exact Hc.
Qed.
Lemma lit_good s : s <> EmptyString -> Forall (fun c => is_space c = false) (lit s) -> good (lit s).
Proof. intros N H. split; [destruct s; [contradiction|discriminate]|exact H]. Qed.
Ltac lgood := apply lit_good; [discriminate|repeat (constructor; [reflexivity|]); constructor].
Ltac nochar := let HI := fresh in intros HI; repeat (destruct HI as [HI|HI]; [discriminate|]); exact HI.

Let step := loop to_float to_int cast_other.
Lemma loop_comment fuel (lines : list word) k (rest : word) st : @nth_error word lines k = Some (hash :: rest) -> contains (lit "edges") rest = false -> contains (lit "metadata") rest = false ->
  step (S fuel) lines (Z.of_nat k) st = step fuel lines (Z.of_nat (k + 1)) st.
Proof.
  intros H H1 H2. unfold step. cbn [loop]. assert (k < length lines) by (apply nth_error_Some; congruence). destruct (Z.eqb_spec (Z.of_nat k) (Z.of_nat (length lines))); [lia|]. destruct (Z.ltb_spec (Z.of_nat k) 0); [lia|].
  rewrite Nat2Z.id, H. rewrite Ascii.eqb_refl. cbn [negb]. rewrite H1, H2. replace (Z.of_nat k + 1)%Z with (Z.of_nat (k + 1)) by lia. reflexivity.
Qed.
Lemma loop_row fuel (lines : list word) k c (rest : word) st row : @nth_error word lines k = Some (c :: rest) -> c <> hash -> rall (map (float to_float) (split (c :: rest))) = Ok row ->
  step (S fuel) lines (Z.of_nat k) st = step fuel lines (Z.of_nat (k + 1)) {| r_data := r_data st ++ [row]; r_edges := r_edges st; r_meta := r_meta st |}.
Proof.
  intros H H1 H2. unfold step. cbn [loop]. assert (k < length lines) by (apply nth_error_Some; congruence). destruct (Z.eqb_spec (Z.of_nat k) (Z.of_nat (length lines))); [lia|]. destruct (Z.ltb_spec (Z.of_nat k) 0); [lia|].
  rewrite Nat2Z.id, H. replace (Ascii.eqb c hash) with false by (symmetry; apply Ascii.eqb_neq; exact H1). cbn [negb]. rewrite H2. cbn [rbind]. replace (Z.of_nat k + 1)%Z with (Z.of_nat (k + 1)) by lia. reflexivity.
Qed.
Lemma loop_rows (lines : list word) rows : forall fuel k st (rs : list word), Forall2 (fun (l : word) row => exists c rest, l = c :: rest /\ c <> hash /\ rall (map (float to_float) (split l)) = Ok row) rs rows ->
  (forall i l, nth_error rs i = Some l -> nth_error lines (k + i) = Some l) ->
  step (length rs + fuel) lines (Z.of_nat k) st = step fuel lines (Z.of_nat (k + length rs)) {| r_data := r_data st ++ rows; r_edges := r_edges st; r_meta := r_meta st |}.
Proof.
  intros fuel k st rs H. revert k st. induction H as [|l row rs rows (c & rest & E & N & HR) _ IH]; intros k st HL.
  - cbn [length Nat.add]. rewrite Nat.add_0_r, app_nil_r. destruct st; reflexivity.
  - cbn [length Nat.add]. pose proof (HL 0 l eq_refl) as H0. rewrite Nat.add_0_r in H0. rewrite E in H0. rewrite (loop_row _ lines k c rest st row H0 N) by (rewrite <- E; exact HR).
    rewrite IH.
    + cbn [r_data r_edges r_meta]. rewrite <- app_assoc. replace (k + 1 + length rs) with (k + S (length rs)) by lia. reflexivity.
    + intros i l' Hi. rewrite <- (HL (S i) l' Hi). f_equal. lia.
Qed.
Lemma loop_end fuel (lines : list word) st : step (S fuel) lines (Z.of_nat (length lines)) st = Ok st.
Proof. unfold step. cbn [loop]. rewrite Z.eqb_refl. reflexivity. Qed.
Lemma slice_mid {A} (a b c : list A) : slice (a ++ b ++ c) (Z.of_nat (length a)) (Z.of_nat (length a) + Z.of_nat (length b)) = b.
Proof.
  unfold slice. destruct (Z.ltb_spec (Z.of_nat (length a) + Z.of_nat (length b)) 0); [lia|]. replace (Z.of_nat (length a) + Z.of_nat (length b) - Z.of_nat (length a))%Z with (Z.of_nat (length b)) by lia.
  rewrite !Nat2Z.id. rewrite skipn_app, skipn_all, Nat.sub_diag. cbn [app skipn]. rewrite firstn_app, firstn_all, Nat.sub_diag. cbn [firstn]. apply app_nil_r.
Qed.
Lemma loop_edges fuel (a : list word) (e : list word) (c : list word) st es : Forall good e -> Forall2 P e es ->
  step (S fuel) (a ++ comment [lit "edges"; itoa (length e)] :: map (fun e => comment [e]) e ++ c) (Z.of_nat (length a)) st =
  step fuel (a ++ comment [lit "edges"; itoa (length e)] :: map (fun e => comment [e]) e ++ c) (Z.of_nat (length a + 1 + length e)) {| r_data := r_data st; r_edges := Some es; r_meta := r_meta st |}.
Proof.
  intros HG HE. set (lines := _ ++ _). assert (HN : nth_error lines (length a) = Some (comment [lit "edges"; itoa (length e)])) by (unfold lines; rewrite nth_error_app2 by lia; rewrite Nat.sub_diag; reflexivity).
  assert (k : length a < length lines) by (apply nth_error_Some; congruence). unfold step. cbn [loop]. destruct (Z.eqb_spec (Z.of_nat (length a)) (Z.of_nat (length lines))); [lia|]. destruct (Z.ltb_spec (Z.of_nat (length a)) 0); [lia|].
  rewrite Nat2Z.id, HN. unfold comment at 1. rewrite Ascii.eqb_refl. cbn [negb].
  replace (contains (lit "edges") (space :: line [lit "edges"; itoa (length e)])) with true by (symmetry; apply contains_iff; exists [space], (space :: itoa (length e) ++ [newline]); reflexivity).
  rewrite split_comment by (constructor; [lgood|constructor; [apply itoa_good|constructor]]). cbn [last_field rev app rbind]. unfold int. rewrite itoa_int. cbn [rbind].
  assert (ES : slice lines (Z.of_nat (length a) + 1) (Z.of_nat (length a) + 1 + Z.of_nat (length e)) = map (fun e => comment [e]) e).
  { assert (EL : lines = (a ++ [comment [lit "edges"; itoa (length e)]]) ++ map (fun e => comment [e]) e ++ c) by (unfold lines; rewrite <- app_assoc; reflexivity). rewrite EL.
    replace (Z.of_nat (length a) + 1)%Z with (Z.of_nat (length (a ++ [comment [lit "edges"; itoa (length e)]]))) by (rewrite app_length; cbn [length]; lia).
    pose proof (slice_mid (a ++ [comment [lit "edges"; itoa (length e)]]) (map (fun e => comment [e]) e) c) as SM. rewrite map_length in SM. exact SM. }
  rewrite ES, map_map.
  assert (ER : rall (map (fun x => match split (tl (comment [x])) with [w] => float to_float w | _ => Err ValueError end) e) = Ok es).
  { apply rall_forall2. clear - HG HE. induction HE as [|w x e es H _ IH]; [constructor|]. constructor; [|apply IH; exact (Forall_inv_tail HG)].
    unfold comment. cbn [tl]. rewrite split_comment by (constructor; [exact (Forall_inv HG)|constructor]). unfold float. rewrite H. reflexivity. }
  rewrite ER. cbn [rbind]. f_equal. lia.
Qed.
Lemma loop_meta fuel (a : list word) m st vs : good_meta cast_other m vs -> r_meta st = [] ->
  step (S fuel) (a ++ comment [lit "metadata"; itoa (length m)] :: map (fun x => comment (meta_fields x)) m) (Z.of_nat (length a)) st =
  step fuel (a ++ comment [lit "metadata"; itoa (length m)] :: map (fun x => comment (meta_fields x)) m) (Z.of_nat (length a + 1 + length m))
    {| r_data := r_data st; r_edges := r_edges st; r_meta := map (fun xv => (fst (fst (fst xv)), MOther (snd xv))) (combine m vs) |}.
Proof.
  intros [ND HM] HS. set (lines := _ ++ _). assert (HN : nth_error lines (length a) = Some (comment [lit "metadata"; itoa (length m)])) by (unfold lines; rewrite nth_error_app2 by lia; rewrite Nat.sub_diag; reflexivity).
  assert (k : length a < length lines) by (apply nth_error_Some; congruence). unfold step. cbn [loop]. destruct (Z.eqb_spec (Z.of_nat (length a)) (Z.of_nat (length lines))); [lia|]. destruct (Z.ltb_spec (Z.of_nat (length a)) 0); [lia|].
  rewrite Nat2Z.id, HN. unfold comment at 1. rewrite Ascii.eqb_refl. cbn [negb].
  rewrite (contains_not (lit "edges")).
  2: { intros HO. destruct (occurs_line (lit "edges") _ ltac:(nochar) ltac:(nochar) ltac:(discriminate) HO) as (w & [<-|[<-|[]]] & Ho).
       - apply contains_iff in Ho. vm_compute in Ho. discriminate.
       - revert Ho. apply (itoa_free _ _ "e"%char); [left; reflexivity|]. change (nat_of_ascii "e") with 101. lia. }
  replace (contains (lit "metadata") (space :: line [lit "metadata"; itoa (length m)])) with true by (symmetry; apply contains_iff; exists [space], (space :: itoa (length m) ++ [newline]); reflexivity).
  rewrite split_comment by (constructor; [lgood|constructor; [apply itoa_good|constructor]]). cbn [last_field rev app rbind]. unfold int. rewrite itoa_int. cbn [rbind]. rewrite Nat2Z.id.
  assert (ER : rall (map (fun i => match nth_error lines (length a + 1 + i) with Some l => Ok (split (tl l)) | None => Err IndexError end) (seq 0 (length m))) = Ok (map meta_fields m)).
  { apply rall_forall2. assert (G : forall i x, nth_error m i = Some x -> nth_error lines (length a + 1 + i) = Some (comment (meta_fields x))).
    { intros i x Hx. unfold lines. rewrite nth_error_app2 by lia. replace (length a + 1 + i - length a) with (S i) by lia. cbn [nth_error]. rewrite nth_error_map, Hx. reflexivity. }
    assert (GF : Forall (fun x => Forall good (meta_fields x)) m) by (clear - HM; induction HM as [|x v m vs ((H1 & H2 & H3) & _) _ IH]; [constructor|constructor; [constructor; [exact H1|constructor; [exact H2|constructor; [exact H3|constructor]]]|exact IH]]).
    assert (GG : forall m' b, (forall i x, nth_error m' i = Some x -> nth_error lines (length a + 1 + (b + i)) = Some (comment (meta_fields x))) -> Forall (fun x => Forall good (meta_fields x)) m' ->
      Forall2 (fun i x => match nth_error lines (length a + 1 + i) with Some l => Ok (split (tl l)) | None => Err IndexError end = Ok x) (seq b (length m')) (map meta_fields m')).
    { induction m' as [|x m' IH]; intros b HL HF; cbn [length seq map]; [constructor|]. constructor.
      - pose proof (HL 0 x eq_refl) as H0. rewrite Nat.add_0_r in H0. rewrite H0. unfold comment. cbn [tl]. rewrite split_comment by exact (Forall_inv HF). reflexivity.
      - apply IH; [|exact (Forall_inv_tail HF)]. intros i y Hy. replace (S b + i) with (b + S i) by lia. apply HL. exact Hy. }
    apply GG; [exact G|exact GF]. }
  rewrite ER. cbn [rbind]. rewrite HS, (read_metas_ok m vs HM [] ND) by (intros x Hx []). cbn [rbind app]. f_equal. lia.
Qed.

Lemma texts_floats t n : Forall (fun nc => good_name (fst nc) /\ size (snd nc) = n /\ Forall good (texts (snd nc))) t ->
  Forall (fun nc => Forall (fun w => exists x, P w x) (texts (snd nc))) t -> forall i, i < n ->
  Forall good (flat_map (fields_of i) t) /\ exists row, Forall2 P (flat_map (fields_of i) t) row.
Proof.
  induction t as [|[name c] t IH]; intros HG HP i Hi; [split; [constructor|exists []; constructor]|].
  destruct (Forall_inv HG) as (_ & SZ & GT). pose proof (Forall_inv HP) as PT. cbn [fst snd] in *. destruct (IH (Forall_inv_tail HG) (Forall_inv_tail HP) i Hi) as (G & row & R).
  cbn [flat_map]. rewrite Forall_forall in GT, PT. destruct c as [l|l]; cbn [size texts] in *.
  - assert (IN : In (nth i l []) l) by (apply nth_In; lia). cbn [fields_of snd app]. destruct (PT _ IN) as (x & Hx). split; [constructor; [apply GT, IN|exact G]|]. exists (x :: row). constructor; assumption.
  - assert (IN : In (nth i l ([], [])) l) by (apply nth_In; lia). cbn [fields_of snd app].
    assert (I1 : In (fst (nth i l ([], []))) (flat_map (fun p => [fst p; snd p]) l)) by (apply in_flat_map; eexists; split; [exact IN|left; reflexivity]).
    assert (I2 : In (snd (nth i l ([], []))) (flat_map (fun p => [fst p; snd p]) l)) by (apply in_flat_map; eexists; split; [exact IN|right; left; reflexivity]).
    destruct (PT _ I1) as (x & Hx). destruct (PT _ I2) as (y & Hy). split; [constructor; [apply GT, I1|constructor; [apply GT, I2|exact G]]|]. exists (x :: y :: row). constructor; [exact Hx|constructor; [exact Hy|exact R]].
Qed.
Lemma rows_exist t n : Forall (fun nc => good_name (fst nc) /\ size (snd nc) = n /\ Forall good (texts (snd nc))) t ->
  Forall (fun nc => Forall (fun w => exists x, P w x) (texts (snd nc))) t -> forall c b, b + c <= n ->
  exists rows, Forall2 (fun i r => Forall2 P (flat_map (fields_of i) t) r) (seq b c) rows.
Proof.
  intros HG HP. induction c as [|c IH]; intros b Hb; [exists []; constructor|]. destruct (IH (S b) ltac:(lia)) as (rows & HR). destruct (texts_floats t n HG HP b ltac:(lia)) as (_ & row & R).
  exists (row :: rows). cbn [seq]. constructor; assumption.
Qed.
Lemma fields_length i j t : length (flat_map (fields_of i) t) = length (flat_map (fields_of j) t).
Proof. induction t as [|[name [l|l]] t IH]; [reflexivity| |]; cbn [flat_map fields_of snd app length]; lia. Qed.
Lemma row_lengths t is rows : Forall2 (fun i r => Forall2 P (flat_map (fields_of i) t) r) is rows -> forall q, In q rows -> length q = length (flat_map (fields_of 0) t).
Proof.
  induction 1 as [|i r is rows H _ IH]; intros q []; [|auto]. subst q. rewrite <- (Forall2_len _ _ _ H). apply fields_length.
Qed.
Variable col_name : nat -> word.
Lemma names_free a t : (forall nc, In nc t -> ~ occurs a (fst nc)) -> ~ In "."%char a -> a <> [] -> ~ occurs a (lit "real") -> ~ occurs a (lit "imag") -> forall w, In w (flat_map names_of t) -> ~ occurs a w.
Proof.
  intros H N NE N1 N2 w Hw Ho. apply in_flat_map in Hw as ([name [l|l]] & Hin & Hw); cbn [names_of fst snd] in Hw; pose proof (H _ Hin) as HN; cbn [fst] in HN.
  - destruct Hw as [<-|[]]. contradiction.
  - destruct Hw as [<-|[<-|[]]]; destruct (occurs_sep a name "."%char _ N Ho); contradiction.
Qed.
Lemma names_good t n : Forall (fun nc => good_name (fst nc) /\ size (snd nc) = n /\ Forall good (texts (snd nc))) t -> Forall good (flat_map names_of t).
Proof.
  induction t as [|[name c] t IH]; intros HG; [constructor|]. destruct (Forall_inv HG) as ([[NE NS] _] & _ & _). cbn [fst] in *. specialize (IH (Forall_inv_tail HG)).
  assert (GA : forall s, Forall (fun c => is_space c = false) s -> good (name ++ s)) by (intros s Hs; split; [destruct name; [contradiction|discriminate]|apply Forall_app; auto]).
  cbn [flat_map]. destruct c as [l|l]; cbn [names_of fst snd app].
  - constructor; [split; assumption|exact IH].
  - constructor; [apply GA; repeat (constructor; [reflexivity|]); constructor|]. constructor; [apply GA; repeat (constructor; [reflexivity|]); constructor|exact IH].
Qed.
Theorem read_1d_ok t n edges es m vs fuel : good_table t n -> numbers to_float t -> header_free t -> 1 <= n -> Forall good edges -> Forall2 P edges es -> good_meta cast_other m vs -> n + 4 <= fuel ->
  exists d rows, read_1d to_float to_int cast_other col_name fuel (file_1d itoa t n edges m) = Ok (d, {| r_data := rows; r_edges := Some es; r_meta := map (fun xv => (fst (fst (fst xv)), MOther (snd xv))) (combine m vs) |}) /\
  length rows = n /\ reads to_float t d.
Proof.
  intros (TN & ND & HG) HP HF Hn GE HE GM HFuel. destruct (rows_exist t n HG HP n 0 ltac:(lia)) as (rows & HR). pose proof (Forall2_len _ _ _ HR) as LR. rewrite seq_length in LR.
  set (lines := file_1d itoa t n edges m). unfold file_1d in lines.
  assert (EL : exists st, loop to_float to_int cast_other fuel lines 0 st = Ok {| r_data := rows; r_edges := Some es; r_meta := map (fun xv => (fst (fst (fst xv)), MOther (snd xv))) (combine m vs) |} /\ st = {| r_data := []; r_edges := None; r_meta := [] |}).
  { eexists. split; [|reflexivity]. fold step. replace fuel with (S (length (map (fun i => line (flat_map (fields_of i) t)) (seq 0 n)) + S (S (S (fuel - n - 4))))) by (rewrite map_length, seq_length; lia).
    change 0%Z with (Z.of_nat 0). rewrite (loop_comment _ lines 0 (space :: line (flat_map names_of t))).
    2: reflexivity.
    2: { apply contains_not. intros H. destruct (occurs_line (lit "edges") _ ltac:(nochar) ltac:(nochar) ltac:(discriminate) H) as (w & Hw & Ho). revert Ho.
         apply (names_free _ t); [intros nc Hnc; apply (HF nc Hnc)|nochar|discriminate| | |exact Hw]; rewrite <- contains_iff; vm_compute; discriminate. }
    2: { apply contains_not. intros H. destruct (occurs_line (lit "metadata") _ ltac:(nochar) ltac:(nochar) ltac:(discriminate) H) as (w & Hw & Ho). revert Ho.
         apply (names_free _ t); [intros nc Hnc; apply (HF nc Hnc)|nochar|discriminate| | |exact Hw]; rewrite <- contains_iff; vm_compute; discriminate. }
    cbn [Nat.add]. rewrite (loop_rows lines rows _ 1 _ (map (fun i => line (flat_map (fields_of i) t)) (seq 0 n))).
    2: { assert (GG : forall c b rows, b + c <= n -> Forall2 (fun i r => Forall2 P (flat_map (fields_of i) t) r) (seq b c) rows ->
           Forall2 (fun (l : word) row => exists c rest, l = c :: rest /\ c <> hash /\ rall (map (float to_float) (split l)) = Ok row) (map (fun i => line (flat_map (fields_of i) t)) (seq b c)) rows).
         { clear LR. induction c as [|c IH]; intros b rs Hb H; cbn [seq map] in *; inversion H as [|? r ? rs' H1 H2]; subst; [constructor|]. constructor; [|apply IH; [lia|exact H2]].
           destruct (texts_floats t n HG HP b ltac:(lia)) as (GF & _). rewrite split_line by exact GF. 
           assert (NEW : exists w ws, flat_map (fields_of b) t = w :: ws) by (destruct t as [|[name [l|l]] t']; [contradiction| |]; cbn [flat_map fields_of snd app]; eauto). destruct NEW as (w & ws & EW).
           rewrite EW in *. inversion H1 as [|? x ? ? Hx _]; subst. destruct (Forall_inv GF) as [WN _]. destruct w as [|ch w]; [contradiction|].
           exists ch, (match ws with [] => w | _ => w ++ space :: words ws end ++ [newline]). split; [unfold line; cbn [words]; destruct ws; reflexivity|]. split; [intros ->; unfold P in Hx; rewrite no_hash in Hx; discriminate|].
           apply floats. exact H1. }
         apply GG; [lia|exact HR]. }
    2: { intros i l Hi. cbn [Nat.add]. unfold lines. cbn [nth_error]. rewrite nth_error_app1; [exact Hi|]. apply nth_error_Some. congruence. }
    cbn [r_data r_edges r_meta app]. rewrite map_length, seq_length.
    set (pre := comment (flat_map names_of t) :: map (fun i => line (flat_map (fields_of i) t)) (seq 0 n)).
    assert (LP : length pre = 1 + n) by (unfold pre; cbn [length]; rewrite map_length, seq_length; reflexivity).
    assert (E1 : lines = pre ++ comment [lit "edges"; itoa (length edges)] :: map (fun e => comment [e]) edges ++ comment [lit "metadata"; itoa (length m)] :: map (fun x => comment (meta_fields x)) m) by reflexivity.
    rewrite E1, <- LP. rewrite (loop_edges _ pre edges _ _ es GE HE). cbn [r_data r_meta].
    set (pre2 := pre ++ comment [lit "edges"; itoa (length edges)] :: map (fun e => comment [e]) edges).
    assert (E2 : pre ++ comment [lit "edges"; itoa (length edges)] :: map (fun e => comment [e]) edges ++ comment [lit "metadata"; itoa (length m)] :: map (fun x => comment (meta_fields x)) m = pre2 ++ comment [lit "metadata"; itoa (length m)] :: map (fun x => comment (meta_fields x)) m) by (unfold pre2; rewrite <- app_assoc; reflexivity).
    rewrite E2. replace (length pre + 1 + length edges) with (length pre2) by (unfold pre2; rewrite app_length; cbn [length]; rewrite map_length; lia).
    rewrite (loop_meta _ pre2 m _ vs GM) by reflexivity. cbn [r_data r_edges].
    replace (length pre2 + 1 + length m) with (length (pre2 ++ comment [lit "metadata"; itoa (length m)] :: map (fun x => comment (meta_fields x)) m)) by (rewrite app_length; cbn [length]; rewrite map_length; lia).
    apply loop_end. }
  destruct EL as (st & EL & ->). unfold read_1d. change (match lines with [] => Err IndexError | [] :: _ => Err IndexError | (c :: rest) :: _ => Ok (if Ascii.eqb c hash then Some (split rest) else None) end) with (Ok (Some (split (space :: line (flat_map names_of t))))).
  cbn [rbind]. fold lines. rewrite EL. cbn [rbind r_data]. rewrite split_comment by (apply (names_good t n HG)).
  destruct (make_columns_ok n rows t 0 []) as (d & E1 & E2).
  { eapply Forall2_impl'; [|exact HR]. intros i r H. exists [], r. auto. } { exact HG. } { exact ND. } { intros k _ []. }
  assert (REC : rectangular rows = true).
  { unfold rectangular. destruct rows as [|r rs]; [reflexivity|]. apply forallb_forall. intros q Hq. apply Nat.eqb_eq.
    pose proof (row_lengths t _ _ HR) as GL.
    rewrite (GL q Hq), (GL r (or_introl eq_refl)). reflexivity. }
  destruct rows as [|r rs] eqn:ER; [cbn [length] in LR; lia|]. rewrite <- ER in *. rewrite REC. cbn [negb]. rewrite E1. cbn [rbind app]. exists d, rows. auto.
Qed.

(* ---- two dimensions ---- *)
Lemma chop_concat c rows : Forall (fun r : list F => length r = c) rows -> chop c (length rows) (concat rows) = rows.
Proof.
  induction 1 as [|r rows H _ IH]; [reflexivity|]. cbn [length concat chop]. rewrite firstn_app, H, Nat.sub_diag. cbn [firstn]. rewrite app_nil_r, firstn_all2 by lia.
  rewrite skipn_app, H, Nat.sub_diag, skipn_all2 by lia. cbn [app skipn]. rewrite IH. reflexivity.
Qed.
Lemma concat_len c rows : Forall (fun r : list F => length r = c) rows -> length (concat rows) = c * length rows.
Proof. induction 1 as [|r rows H _ IH]; [cbn; lia|]. cbn [concat length]. rewrite app_length, IH, H. lia. Qed.
Lemma Forall2_concat {A B I} (R : A -> B -> Prop) (g : I -> list A) is rows : Forall2 (fun i r => Forall2 R (g i) r) is rows -> Forall2 R (flat_map g is) (concat rows).
Proof. induction 1 as [|i r is rows H _ IH]; [constructor|]. cbn [flat_map concat]. apply Forall2_app; assumption. Qed.
Lemma nth_mid {A} (a b : list A) x k : k = length a -> nth_error (a ++ x :: b) k = Some x.
Proof. intros ->. rewrite nth_error_app2 by lia. rewrite Nat.sub_diag. reflexivity. Qed.
Lemma skip_mid {A} (a b : list A) k : k = length a -> skipn k (a ++ b) = b.
Proof. intros ->. rewrite skipn_app, skipn_all, Nat.sub_diag. reflexivity. Qed.
Lemma first_mid {A} (a b : list A) k : k = length a -> firstn k (a ++ b) = a.
Proof. intros ->. rewrite firstn_app, firstn_all, Nat.sub_diag. cbn [firstn]. apply app_nil_r. Qed.
Lemma line_floats e es : Forall good e -> Forall2 P e es -> rall (map (line_float to_float) (map (fun e => line [e]) e)) = Ok es.
Proof.
  intros HG HE. rewrite map_map. apply rall_forall2. induction HE as [|w x e es H _ IH]; [constructor|]. constructor; [|apply IH; exact (Forall_inv_tail HG)].
  unfold line_float. rewrite split_line by (constructor; [exact (Forall_inv HG)|constructor]). unfold float. rewrite H. reflexivity.
Qed.
Lemma head_int a n : good a -> (let! w := last_field (split (line [a; itoa n])) in int to_int w) = Ok (Z.of_nat n).
Proof. intros H. rewrite split_line by (constructor; [exact H|constructor; [apply itoa_good|constructor]]). cbn [last_field rev app rbind]. unfold int. rewrite itoa_int. reflexivity. Qed.
Lemma split_rows t is : (forall i, In i is -> Forall good (flat_map (fields_of i) t)) -> flat_map split (map (fun i => line (flat_map (fields_of i) t)) is) = flat_map (fun i => flat_map (fields_of i) t) is.
Proof. induction is as [|i is IH]; intros H; [reflexivity|]. cbn [map flat_map]. rewrite split_line by (apply H; left; reflexivity). rewrite IH by (intros; apply H; right; assumption). reflexivity. Qed.
Theorem read_2d_ok t nk nmu ke kes me mes m vs : good_table t (nk * nmu) -> numbers to_float t -> 1 <= nk -> 1 <= nmu -> Forall good ke -> Forall2 P ke kes -> Forall good me -> Forall2 P me mes -> good_meta cast_other m vs ->
  exists d, read_2d to_float to_int cast_other (file_2d itoa t nk nmu ke me m) = Ok (d, {| r_shape := (nk, nmu); r_edges2 := (kes, mes); r_meta2 := map (fun xv => (fst (fst (fst xv)), MOther (snd xv))) (combine m vs) |}) /\ reads to_float t d.
Proof.
  intros (TN & ND & HG) HP Hk Hm GK HK GME HM GM. set (N := nk * nmu) in *. assert (HN : 1 <= N) by (unfold N; nia).
  destruct (rows_exist t N HG HP N 0 ltac:(lia)) as (rows & HR). pose proof (Forall2_len _ _ _ HR) as LR. rewrite seq_length in LR.
  unfold file_2d. fold N. unfold read_2d. set (R := map (fun i => line (flat_map (fields_of i) t)) (seq 0 N)).
  assert (LRR : length R = N) by (unfold R; rewrite map_length, seq_length; reflexivity).
  rewrite split_line by (constructor; [apply itoa_good|constructor; [apply itoa_good|constructor]]). cbn [map rall]. unfold int at 1 2. rewrite !itoa_int. cbn [rbind].
  destruct (Z.leb_spec (Z.of_nat nk) 0); [lia|]. destruct (Z.leb_spec (Z.of_nat nmu) 0); [lia|]. cbn [orb]. rewrite !Nat2Z.id. fold N. rewrite split_line by (apply (names_good t N HG)).
  set (KE := map (fun e => line [e]) ke). set (ME := map (fun e => line [e]) me). set (MM := map (fun x => line (meta_fields x)) m).
  set (h1 := line [lit "kedges"; itoa (length ke)]). set (h2 := line [lit "muedges"; itoa (length me)]). set (h3 := line [lit "metadata"; itoa (length m)]).
  set (lines := R ++ h1 :: KE ++ h2 :: ME ++ h3 :: MM).
  assert (E0 : firstn N lines = R) by (unfold lines; apply first_mid; auto). rewrite E0. unfold R at 1. rewrite split_rows by (intros i Hi; apply in_seq in Hi; apply (texts_floats t N HG HP i); lia).
  rewrite (floats _ (concat rows)) by (apply Forall2_concat; exact HR). cbn [rbind].
  pose proof (row_lengths t _ _ HR) as GL. rewrite <- Forall_forall in GL. set (C := length (flat_map (fields_of 0) t)) in *. rewrite (concat_len C rows GL), <- LR.
  rewrite Nat.mod_mul by lia. cbn [Nat.eqb negb]. rewrite Nat.div_mul by lia. replace (chop C N (concat rows)) with rows by (rewrite LR; symmetry; apply (chop_concat C rows GL)).
  destruct (make_columns_ok N rows t 0 []) as (d & E1 & E2).
  { eapply Forall2_impl'; [|exact HR]. intros i r H'. exists [], r. auto. } { exact HG. } { exact ND. } { intros k _ []. }
  rewrite E1. cbn [rbind app].
  assert (N1 : nth_error lines N = Some h1) by (unfold lines; apply nth_mid; auto).
  assert (LK : length KE = length ke) by apply map_length. assert (LM : length ME = length me) by apply map_length.
  unfold field_line. rewrite N1. cbn [rbind]. pose proof (head_int (lit "kedges") (length ke) ltac:(lgood)) as I1. fold h1 in I1. destruct (last_field (split h1)) as [w1|] eqn:L1; [|discriminate]. cbn [rbind] in I1 |- *. rewrite I1. cbn [rbind].
  destruct (Z.ltb_spec (Z.of_nat (length ke)) 0); [lia|]. rewrite Nat2Z.id.
  assert (P1 : lines = (R ++ [h1]) ++ KE ++ h2 :: ME ++ h3 :: MM) by (unfold lines; rewrite <- app_assoc; reflexivity).
  assert (E3 : firstn (length ke) (skipn (N + 1) lines) = KE) by (rewrite P1, skip_mid by (rewrite app_length; cbn [length]; lia); apply first_mid; auto). rewrite E3. unfold KE at 1. rewrite (line_floats ke kes GK HK). cbn [rbind].
  assert (P2 : lines = (R ++ h1 :: KE) ++ h2 :: ME ++ h3 :: MM) by (unfold lines; rewrite <- app_assoc; reflexivity).
  assert (N2 : nth_error lines (N + 1 + length ke) = Some h2) by (rewrite P2; apply nth_mid; rewrite app_length; cbn [length]; lia). rewrite N2. cbn [rbind].
  pose proof (head_int (lit "muedges") (length me) ltac:(lgood)) as I2. fold h2 in I2. destruct (last_field (split h2)) as [w2|] eqn:L2; [|discriminate]. cbn [rbind] in I2 |- *. rewrite I2. cbn [rbind].
  destruct (Z.ltb_spec (Z.of_nat (length me)) 0); [lia|]. rewrite Nat2Z.id.
  assert (P3 : lines = (R ++ h1 :: KE ++ [h2]) ++ ME ++ h3 :: MM) by (unfold lines; rewrite <- !app_assoc; cbn [app]; rewrite <- app_assoc; reflexivity).
  assert (E4 : firstn (length me) (skipn (N + 1 + length ke + 1) lines) = ME) by (rewrite P3, skip_mid by (rewrite app_length; cbn [length]; rewrite app_length; cbn [length]; lia); apply first_mid; auto). rewrite E4. unfold ME at 1. rewrite (line_floats me mes GME HM). cbn [rbind].
  assert (P4 : lines = (R ++ h1 :: KE ++ h2 :: ME) ++ h3 :: MM) by (unfold lines; rewrite <- app_assoc; cbn [app]; rewrite <- app_assoc; reflexivity).
  assert (LP : length (R ++ h1 :: KE ++ h2 :: ME) = N + 1 + length ke + 1 + length me) by (rewrite app_length; cbn [length]; rewrite app_length; cbn [length]; lia).
  assert (LT : (N + 1 + length ke + 1 + length me <? length lines) = true) by (apply Nat.ltb_lt; rewrite P4, app_length; cbn [length]; lia). rewrite LT.
  assert (N3 : nth_error lines (N + 1 + length ke + 1 + length me) = Some h3) by (rewrite P4; apply nth_mid; lia). rewrite N3. cbn [rbind].
  pose proof (head_int (lit "metadata") (length m) ltac:(lgood)) as I3. fold h3 in I3. destruct (last_field (split h3)) as [w3|] eqn:L3; [|discriminate]. cbn [rbind] in I3 |- *. rewrite I3. cbn [rbind].
  destruct (Z.ltb_spec (Z.of_nat (length m)) 0); [lia|]. rewrite Nat2Z.id.
  assert (P5 : lines = (R ++ h1 :: KE ++ h2 :: ME ++ [h3]) ++ MM) by (unfold lines; rewrite <- !app_assoc; cbn [app]; rewrite <- !app_assoc; cbn [app]; rewrite <- app_assoc; reflexivity).
  assert (E5 : map split (firstn (length m) (skipn (N + 1 + length ke + 1 + length me + 1) lines)) = map meta_fields m).
  { rewrite P5, skip_mid by (rewrite app_length; cbn [length]; rewrite app_length; cbn [length]; rewrite app_length; cbn [length]; lia). rewrite firstn_all2 by (unfold MM; rewrite map_length; lia). unfold MM. rewrite map_map.
    destruct GM as [_ GM]. clear - GM. induction GM as [|x v m vs ((H1 & H2 & H3) & _) _ IH]; [reflexivity|]. cbn [map]. rewrite IH. f_equal. apply split_line. constructor; [exact H1|constructor; [exact H2|constructor; [exact H3|constructor]]]. }
  rewrite E5. destruct GM as [NDM GM]. rewrite (read_metas_ok m vs GM [] NDM) by (intros x Hx []). cbn [rbind app]. exists d. split; [reflexivity|exact E2].
Qed.

(* ---- from_plaintext ---- *)
Lemma dput_keys {W} k (v : W) d x : In x (map fst (dput k v d)) <-> x = k \/ In x (map fst d).
Proof.
  induction d as [|[k' v'] d IH]; cbn [dput map fst In]; [intuition congruence|]. destruct (word_eqb k k') eqn:E; cbn [map fst In]; [apply word_eqb_iff in E; subst; intuition congruence|]. rewrite IH. intuition congruence.
Qed.
Lemma dupdate_keys {W} (e : dict W) : forall d x, In x (map fst (dupdate d e)) <-> In x (map fst d) \/ In x (map fst e).
Proof.
  unfold dupdate. induction e as [|[k v] e IH]; intros d x; cbn [fold_left map fst snd In]; [intuition|]. rewrite IH, dput_keys. intuition congruence.
Qed.
Lemma dput_find {W} k (v : W) d x : dfind x (dput k v d) = if word_eqb x k then Some v else dfind x d.
Proof.
  induction d as [|[k' v'] d IH]; cbn [dput dfind]; [reflexivity|]. destruct (word_eqb k k') eqn:E; cbn [dfind].
  - apply word_eqb_iff in E. subst k'. destruct (word_eqb x k); reflexivity.
  - rewrite IH. destruct (word_eqb x k') eqn:E1; [|reflexivity]. apply word_eqb_iff in E1. subst k'. destruct (word_eqb x k) eqn:E2; [|reflexivity]. apply word_eqb_iff in E2. subst k. assert (word_eqb x x = true) by (apply word_eqb_iff; reflexivity). congruence.
Qed.
Lemma dupdate_find {W} (e : dict W) : forall d x, NoDup (map fst e) -> dfind x (dupdate d e) = match dfind x e with Some v => Some v | None => dfind x d end.
Proof.
  unfold dupdate. induction e as [|[k v] e IH]; intros d x ND; cbn [fold_left dfind fst snd map] in *; [reflexivity|]. apply NoDup_cons_iff in ND as [NI ND]. rewrite IH by exact ND. rewrite dput_find.
  destruct (word_eqb x k) eqn:E; [|reflexivity]. apply word_eqb_iff in E. subst x. rewrite dfind_none by exact NI. reflexivity.
Qed.
Lemma build_ok dims edges shape cols m vs kw : good_meta cast_other m vs -> kw_ok kw -> map (@length F) edges = map S shape ->
  build dims edges shape cols (dupdate (map (fun xv => (fst (fst (fst xv)), MOther (snd xv))) (combine m vs)) kw) =
    Ok {| t_dims := dims; t_edges := edges; t_shape := shape; t_cols := cols; t_attrs := dupdate (map (fun xv => (fst (fst (fst xv)), MOther (snd xv))) (combine m vs)) kw |}.
Proof.
  intros GM [_ HK] HL. unfold build.
  assert (G : forall k, In k (["dims"; "data"; "edges"; "self"; "coords"; "fields_to_sum"]%string) -> has k (dupdate (map (fun xv => (fst (fst (fst xv)), MOther (snd xv))) (combine m vs)) kw) = false).
  { intros k Hk. apply has_not. rewrite dupdate_keys. intros [H|H]; [|exact (HK k Hk H)]. revert H. apply (good_keys m vs); [exact GM|reflexivity|]. cbn [In] in *. intuition. }
  rewrite !G by (cbn [In]; tauto). cbn [orb]. destruct (list_eq_dec Nat.eq_dec _ _) as [_|N]; [reflexivity|contradiction].
Qed.
Theorem plain_1d dim t n edges es m vs kw fuel : good_table t n -> numbers to_float t -> header_free t -> 1 <= n -> length edges = S n -> Forall good edges -> Forall2 P edges es -> good_meta cast_other m vs -> kw_ok kw -> n + 4 <= fuel ->
  exists s a, from_plaintext to_float to_int cast_other col_name fuel [dim] (file_1d itoa t n edges m) kw = Ok s /\ t_dims s = [dim] /\ t_edges s = [es] /\ t_shape s = [n] /\ reads to_float t (t_cols s) /\
  attrs_are m vs a /\ forall k, dfind k (t_attrs s) = match dfind k kw with Some v => Some v | None => dfind k a end.
Proof.
  intros HT HP HF Hn LE GE HE GM KW HFuel. destruct (read_1d_ok t n edges es m vs fuel HT HP HF Hn GE HE GM HFuel) as (d & rows & E & LR & RD).
  unfold from_plaintext. rewrite E. cbn [wrap rbind fst snd r_meta r_edges r_data]. unfold shadowed. rewrite !has_not by (apply (good_keys m vs); [exact GM|reflexivity|cbn [In]; tauto]). cbn [orb].
  rewrite build_ok; [|exact GM|exact KW|cbn [map]; rewrite LR, <- LE, (Forall2_len _ _ _ HE); reflexivity].
  eexists _, _. split; [reflexivity|]. cbn [t_dims t_edges t_shape t_cols t_attrs]. rewrite LR. do 3 (split; [reflexivity|]). split; [exact RD|]. split; [reflexivity|]. intros k. apply dupdate_find, KW.
Qed.
Theorem plain_2d d1 d2 t nk nmu ke kes me mes m vs kw fuel : good_table t (nk * nmu) -> numbers to_float t -> 1 <= nk -> 1 <= nmu -> length ke = S nk -> length me = S nmu -> Forall good ke -> Forall2 P ke kes -> Forall good me -> Forall2 P me mes -> good_meta cast_other m vs -> kw_ok kw ->
  exists s a, from_plaintext to_float to_int cast_other col_name fuel [d1; d2] (file_2d itoa t nk nmu ke me m) kw = Ok s /\ t_dims s = [d1; d2] /\ t_edges s = [kes; mes] /\ t_shape s = [nk; nmu] /\ reads to_float t (t_cols s) /\
  attrs_are m vs a /\ forall k, dfind k (t_attrs s) = match dfind k kw with Some v => Some v | None => dfind k a end.
Proof.
  intros HT HP Hk Hm LK LM GK HK GE HE GM KW. destruct (read_2d_ok t nk nmu ke kes me mes m vs HT HP Hk Hm GK HK GE HE GM) as (d & E & RD).
  unfold from_plaintext. rewrite E. cbn [wrap rbind fst snd r_meta2 r_edges2 r_shape]. rewrite !has_not by (apply (good_keys m vs); [exact GM|reflexivity|cbn [In]; tauto]).
  rewrite build_ok; [|exact GM|exact KW|cbn [map]; rewrite <- LK, <- LM, (Forall2_len _ _ _ HK), (Forall2_len _ _ _ HE); reflexivity].
  eexists _, _. split; [reflexivity|]. cbn [t_dims t_edges t_shape t_cols t_attrs]. do 3 (split; [reflexivity|]). split; [exact RD|]. split; [reflexivity|]. intros k. apply dupdate_find, KW.
Qed.
End Text.
