From Coq Require Import Ascii.
From Verif Require Import Base BaseProofs IoModel IoSpec IoProofs CsvModel CsvSpec.
Local Open Scope nat_scope.

Lemma is_nl_nl : is_nl nl = true. Proof. reflexivity. Qed.
Lemma is_nl_iff : forall c, is_nl c = true <-> c = nl.
Proof. intros c. unfold is_nl. apply Ascii.eqb_eq. Qed.
Lemma not_nl : forall c l, no_newline (c :: l) -> is_nl c = false /\ no_newline l.
Proof.
  intros c l H. split; [|intros G; apply H; right; exact G]. destruct (is_nl c) eqn:E; [|reflexivity].
  exfalso. apply H. left. apply is_nl_iff. exact E.
Qed.

(* lines with a flag whether they are terminated *)
Notation piece := (bytes * bool)%type.
Definition render (p : piece) : bytes := fst p ++ if snd p then [nl] else [].
Definition whole (ps : list piece) : bytes := flat_map render ps.
(* all but the last are terminated; an unterminated one is not empty *)
Inductive well : list piece -> Prop :=
| Well_nil : well []
| Well_last : forall l, no_newline l -> l <> [] -> well [(l, false)]
| Well_cons : forall l ps, no_newline l -> well ps -> well ((l, true) :: ps).
Definition pieces (ls : list bytes) (tail : bytes) : list piece :=
  map (fun l => (l, true)) ls ++ match tail with [] => [] | _ => [(tail, false)] end.

Lemma whole_pieces : forall ls tail, whole (pieces ls tail) = text ls tail.
Proof.
  intros ls tail. unfold whole, pieces, text. rewrite flat_map_app. f_equal.
  - induction ls as [|l ls IH]; [reflexivity|]. cbn [map flat_map]. rewrite IH. reflexivity.
  - destruct tail; [reflexivity|]. unfold render. cbn [flat_map fst snd]. rewrite !app_nil_r. reflexivity.
Qed.
Lemma pieces_lines : forall ls tail, map fst (pieces ls tail) = all_lines ls tail.
Proof. intros ls tail. unfold pieces, all_lines. rewrite map_app, map_map. cbn [fst]. rewrite map_id. f_equal. destruct tail; reflexivity. Qed.
Lemma pieces_well : forall ls tail, Forall no_newline ls -> no_newline tail -> well (pieces ls tail).
Proof.
  intros ls tail Hl Ht. unfold pieces. induction Hl as [|l ls Hl _ IH]; cbn [map app].
  - destruct tail; [constructor|]. constructor; [exact Ht|discriminate].
  - constructor; assumption.
Qed.
Lemma well_skipn : forall ps k, well ps -> well (skipn k ps).
Proof. intros ps k. revert ps. induction k as [|k IH]; intros ps H; [exact H|]. destruct H; cbn [skipn]; [constructor|rewrite skipn_nil; constructor|apply IH; assumption]. Qed.
Lemma well_firstn : forall ps k, well ps -> well (firstn k ps).
Proof.
  intros ps k H. revert k. induction H as [|l H1 H2|l ps H1 H IH]; intros [|k]; cbn [firstn]; try constructor; try assumption.
  - rewrite firstn_nil. constructor; assumption.
  - apply IH.
Qed.
Lemma render_ne : forall ps p, well ps -> In p ps -> render p <> [].
Proof.
  intros ps p H. induction H as [|l H1 H2|l ps H1 H IH]; intros Hp; [destruct Hp|destruct Hp as [<-|[]]|destruct Hp as [<-|Hp]].
  - unfold render. cbn [fst snd]. rewrite app_nil_r. exact H2.
  - unfold render. cbn [fst snd]. destruct l; discriminate.
  - apply IH. exact Hp.
Qed.

Lemma whole_cons : forall p ps, whole (p :: ps) = render p ++ whole ps. Proof. reflexivity. Qed.
Lemma render_true : forall l, render (l, true) = l ++ [nl]. Proof. reflexivity. Qed.
Lemma render_false : forall l, render (l, false) = l. Proof. intros l. unfold render. cbn. apply app_nil_r. Qed.
(* ---- lines and counts of a well-formed text ---- *)
Lemma split_free : forall l cur r, no_newline l -> split_lines cur (l ++ r) = split_lines (rev l ++ cur) r.
Proof.
  induction l as [|c l IH]; intros cur r H; [reflexivity|]. apply not_nl in H. destruct H as [H1 H2].
  cbn [app split_lines rev]. rewrite H1, IH by exact H2. rewrite <- app_assoc. reflexivity.
Qed.
Lemma whole_nil : whole [] = []. Proof. reflexivity. Qed.
Ltac wc := rewrite ?whole_cons, ?render_true, ?render_false, ?whole_nil.
Lemma lines_whole : forall ps, well ps -> lines (whole ps) = map fst ps.
Proof.
  intros ps H. unfold lines. induction H as [|l H1 H2|l ps H1 H IH]; [reflexivity| |].
  - wc; cbn [map fst]. rewrite !app_nil_r, <- (app_nil_r l), split_free by exact H1. cbn [split_lines].
    rewrite !app_nil_r. destruct (rev l) as [|c r] eqn:E; [|rewrite <- E, rev_involutive; reflexivity].
    exfalso. apply H2. rewrite <- (rev_involutive l), E. reflexivity.
  - wc; cbn [map fst]. rewrite <- app_assoc, split_free by exact H1. cbn [app split_lines]. rewrite is_nl_nl, app_nil_r, rev_involutive. f_equal. exact IH.
Qed.
Lemma count1_free : forall l r, no_newline l -> count1 (l ++ r) = count1 r.
Proof. induction l as [|c l IH]; intros r H; [reflexivity|]. apply not_nl in H. destruct H as [H1 H2]. cbn [app count1]. rewrite H1, IH by exact H2. reflexivity. Qed.
Definition open_end (ps : list piece) : bool := existsb (fun p => negb (snd p)) ps.
Lemma count1_whole : forall ps, well ps -> count1 (whole ps) + (if open_end ps then 1 else 0) = length ps.
Proof.
  intros ps H. induction H as [|l H1 H2|l ps H1 H IH]; [reflexivity| |].
  - wc. rewrite !app_nil_r, <- (app_nil_r l), count1_free by exact H1. reflexivity.
  - wc; cbn [length]. rewrite <- app_assoc, count1_free by exact H1. cbn [app count1]. rewrite is_nl_nl.
    change (open_end ((l, true) :: ps)) with (open_end ps). lia.
Qed.
Lemma ends_app : forall a c, ends_nl (a ++ [c]) = is_nl c.
Proof. intros a c. unfold ends_nl. rewrite rev_app_distr. reflexivity. Qed.
Lemma ends_app_ne : forall a b, b <> [] -> ends_nl (a ++ b) = ends_nl b.
Proof.
  intros a b H. destruct (exists_last H) as [b' [c ->]]. rewrite app_assoc, !ends_app. reflexivity.
Qed.
Lemma ends_whole : forall ps, well ps -> ps <> [] -> ends_nl (whole ps) = negb (open_end ps).
Proof.
  intros ps H. induction H as [|l H1 H2|l ps H1 H IH]; intros Hne; [congruence| |].
  - wc. rewrite !app_nil_r. cbn [open_end existsb snd negb orb].
    destruct (exists_last H2) as [b [c ->]]. rewrite ends_app. destruct (is_nl c) eqn:E; [|reflexivity]. exfalso. apply H1. apply in_or_app. right. left.
    apply is_nl_iff. exact E.
  - wc. change (open_end ((l, true) :: ps)) with (open_end ps). destruct ps as [|p ps].
    + cbn [flat_map]. rewrite app_nil_r, ends_app. reflexivity.
    + rewrite ends_app_ne; [apply IH; discriminate|]. cbn [flat_map]. pose proof (render_ne (p :: ps) p H (or_introl eq_refl)) as Hr.
      rewrite whole_cons. destruct (render p); [congruence|discriminate].
Qed.
Lemma count2_step : forall a b r, count2 (a :: b :: r) = if is_nl a && is_nl b then S (count2 r) else count2 (b :: r).
Proof. reflexivity. Qed.
Lemma count2_free : forall l r, no_newline l -> count2 (l ++ r) = count2 r.
Proof.
  induction l as [|c l IH]; intros r H; [reflexivity|]. apply not_nl in H. destruct H as [H1 H2]. cbn [app].
  destruct (l ++ r) as [|b m] eqn:E.
  - rewrite <- (IH r H2), E. reflexivity.
  - rewrite count2_step, H1. cbn [andb]. rewrite <- E. apply IH. exact H2.
Qed.
Definition is_empty (l : bytes) : bool := match l with [] => true | _ => false end.
Definition empties (ps : list piece) : nat := length (filter (fun p => is_empty (fst p)) ps).
(* no two empty lines in a row *)
Fixpoint spaced (ps : list piece) : Prop :=
  match ps with
  | p :: ((p' :: _) as r) => (fst p = [] -> fst p' <> []) /\ spaced r
  | _ => True
  end.
Lemma count2_nl_free : forall l r, no_newline l -> l <> [] -> count2 (nl :: l ++ r) = count2 r.
Proof.
  intros [|c l] r H Hne; [congruence|]. cbn [app]. pose proof (not_nl _ _ H) as [H1 _]. rewrite count2_step, H1, andb_false_r.
  apply (count2_free (c :: l)). exact H.
Qed.
Lemma count2_nl_whole : forall ps, well ps -> spaced ps -> count2 (nl :: whole ps) = empties ps.
Proof.
  intros ps Hw. remember (length ps) as n eqn:En. revert ps Hw En. induction n as [n IH] using (well_founded_induction lt_wf).
  intros ps Hw En Hs. destruct Hw as [|l H1 H2|l ps H1 Hw]; [reflexivity| |].
  - wc. rewrite !app_nil_r, <- (app_nil_r l), count2_nl_free by assumption.
    unfold empties. cbn [filter fst]. rewrite app_nil_r. destruct l; [congruence|reflexivity].
  - assert (Hs' : spaced ps) by (destruct ps; [exact I|apply Hs]).
    wc. rewrite <- app_assoc. destruct l as [|c l].
    + cbn [app]. unfold empties. cbn [filter fst is_empty length]. fold (empties ps).
      change (count2 (nl :: nl :: whole ps)) with (S (count2 (whole ps))). f_equal.
      destruct Hw as [|l2 H3 H4|l2 ps2 H3 Hw2]; [reflexivity| |].
      * wc. rewrite !app_nil_r, <- (app_nil_r l2), count2_free by assumption. unfold empties. cbn [filter fst].
        rewrite app_nil_r. destruct l2; [congruence|reflexivity].
      * cbn [spaced fst] in Hs. destruct Hs as [Hs1 Hs2]. specialize (Hs1 eq_refl).
        wc. rewrite <- app_assoc, count2_free by assumption. cbn [app].
        unfold empties. cbn [filter fst]. destruct l2; [congruence|]. cbn [is_empty]. fold (empties ps2). cbn [length] in En.
        apply (IH (length ps2)); [lia|assumption|reflexivity|]. destruct ps2; [exact I|]. apply Hs'.
    + rewrite count2_nl_free by (try assumption; discriminate). cbn [app]. unfold empties. cbn [filter fst is_empty]. fold (empties ps).
      cbn [length] in En. apply (IH (length ps)); [lia|assumption|reflexivity|assumption].
Qed.
Lemma count2_whole : forall ps, well ps -> spaced (tl ps) -> count2 (whole ps) + (if starts_nl (whole ps) then 1 else 0) = empties ps.
Proof.
  intros ps Hw Hs. destruct Hw as [|l H1 H2|l ps H1 Hw]; [reflexivity| |].
  - wc. rewrite !app_nil_r, <- (app_nil_r l), count2_free by assumption.
    rewrite app_nil_r. unfold empties. cbn [filter fst]. destruct l as [|c l]; [congruence|]. cbn [starts_nl is_empty].
    rewrite (proj1 (not_nl _ _ H1)). reflexivity.
  - wc. rewrite <- app_assoc, count2_free by assumption. cbn [app]. cbn [tl] in Hs.
    rewrite count2_nl_whole by assumption. unfold empties. cbn [filter fst]. fold (empties ps).
    destruct l as [|c l]; cbn [app is_empty starts_nl length].
    + rewrite is_nl_nl. fold (empties ps). lia.
    + rewrite (proj1 (not_nl _ _ H1)). fold (empties ps). lia.
Qed.

(* ---- seeking ---- *)
Definition off (ps : list piece) (k : nat) : nat := length (whole (firstn k ps)).
(* the number of lines that begin at or before byte o *)
Fixpoint upto (ps : list piece) (o : nat) : nat :=
  match ps with
  | [] => 0
  | p :: ps => if o <? length (render p) then 1 else S (upto ps (o - length (render p)))
  end.
Lemma find_free : forall l r, no_newline l -> find_nl (l ++ nl :: r) = Some (length l).
Proof. induction l as [|c l IH]; intros r H; cbn [app find_nl]; [rewrite is_nl_nl; reflexivity|]. apply not_nl in H. destruct H as [H1 H2]. rewrite H1, IH by exact H2. reflexivity. Qed.
Lemma find_none : forall l, no_newline l -> find_nl l = None.
Proof. induction l as [|c l IH]; intros H; cbn [find_nl]; [reflexivity|]. apply not_nl in H. destruct H as [H1 H2]. rewrite H1, IH by exact H2. reflexivity. Qed.
Lemma no_newline_skipn : forall l k, no_newline l -> no_newline (skipn k l).
Proof. intros l k H G. apply H. rewrite <- (firstn_skipn k l). apply in_or_app. right. exact G. Qed.
Lemma seek_upto : forall ps o, well ps -> o < length (whole ps) ->
  match find_nl (skipn o (whole ps)) with Some i => o + i + 1 | None => Nat.max o (length (whole ps)) end = off ps (upto ps o).
Proof.
  intros ps o H. revert o. induction H as [|l H1 H2|l ps H1 H IH]; intros o Ho; [cbn in Ho; lia| |].
  - rewrite whole_cons in *. cbn [whole flat_map] in *. rewrite app_nil_r in *. rewrite render_false in *. rewrite find_none by (apply no_newline_skipn; exact H1).
    cbn [upto]. rewrite render_false. destruct (Nat.ltb_spec o (length l)); [|lia]. unfold off. cbn [firstn whole flat_map]. rewrite render_false, app_nil_r. lia.
  - rewrite whole_cons, render_true, app_length, app_length in Ho. cbn [length] in Ho. cbn [upto]. rewrite render_true, app_length. cbn [length].
    rewrite whole_cons, render_true.
    destruct (Nat.ltb_spec o (length l + 1)) as [Hlt|Hge].
    + rewrite skipn_app, skipn_app. replace (o - length (l ++ [nl])) with 0 by (rewrite app_length; cbn; lia). replace (o - length l) with 0 by lia.
      cbn [skipn]. rewrite <- app_assoc. cbn [app]. rewrite find_free by (apply no_newline_skipn; exact H1). rewrite skipn_length.
      unfold off. cbn [firstn]. rewrite whole_cons, render_true. cbn [whole flat_map]. rewrite app_nil_r, app_length. cbn [length]. lia.
    + rewrite skipn_app. rewrite skipn_all2 by (rewrite app_length; cbn; lia). cbn [app]. rewrite !app_length. cbn [length].
      specialize (IH (o - (length l + 1)) ltac:(lia)).
      assert (Hoff : off ((l, true) :: ps) (S (upto ps (o - (length l + 1)))) = length l + 1 + off ps (upto ps (o - (length l + 1)))).
      { unfold off. cbn [firstn]. rewrite whole_cons, render_true, !app_length. cbn [length]. lia. }
      rewrite Hoff, <- IH. destruct (find_nl _); lia.
Qed.
Lemma off_all : forall ps k, length ps <= k -> off ps k = length (whole ps).
Proof. intros ps k H. unfold off. rewrite firstn_all2 by exact H. reflexivity. Qed.
Lemma off_S : forall p ps k, off (p :: ps) (S k) = length (render p) + off ps k.
Proof. intros p ps k. unfold off. cbn [firstn]. rewrite whole_cons, app_length. reflexivity. Qed.
Lemma upto_spec : forall ps o, (forall k, k < upto ps o -> off ps k <= o) /\ (upto ps o < length ps -> o < off ps (upto ps o)) /\ upto ps o <= length ps.
Proof.
  induction ps as [|p ps IH]; intros o; cbn [upto length].
  - split; [intros k Hk; lia|]. split; [intros Hk; lia|lia].
  - destruct (Nat.ltb_spec o (length (render p))) as [Hlt|Hge].
    + split; [intros k Hk; replace k with 0 by lia; unfold off; cbn; lia|]. split; [|lia]. intros _. rewrite off_S. unfold off. cbn. lia.
    + destruct (IH (o - length (render p))) as [IH1 [IH2 IH3]]. split; [|split; [|lia]].
      * intros [|k] Hk; [unfold off; cbn; lia|]. rewrite off_S. specialize (IH1 k ltac:(lia)). lia.
      * intros Hk. rewrite off_S. specialize (IH2 ltac:(lia)). lia.
Qed.
Lemma off_mono : forall ps j k, j <= k -> off ps j <= off ps k.
Proof.
  induction ps as [|p ps IH]; intros j k H; [unfold off; rewrite !firstn_nil; cbn; lia|]. destruct j as [|j]; [unfold off at 1; cbn; lia|].
  destruct k as [|k]; [lia|]. rewrite !off_S. specialize (IH j k). lia.
Qed.
Lemma off_strict : forall ps k, well ps -> k < length ps -> off ps k < length (whole ps).
Proof.
  intros ps k H. revert k. induction H as [|l H1 H2|l ps H1 H IH]; intros k Hk; [cbn in Hk; lia| |].
  - cbn in Hk. replace k with 0 by lia. rewrite whole_cons, render_false. unfold off. cbn. destruct l; [congruence|]. cbn. lia.
  - rewrite whole_cons, render_true, !app_length. cbn [length] in *. destruct k as [|k]; [unfold off; cbn; lia|]. rewrite off_S, render_true, app_length. cbn [length]. specialize (IH k). lia.
Qed.
Lemma upto_big : forall ps o, well ps -> length (whole ps) <= o -> upto ps o = length ps.
Proof.
  intros ps o Hw Ho. destruct (upto_spec ps o) as [_ [H2 H3]]. destruct (Nat.eq_dec (upto ps o) (length ps)) as [E|E]; [exact E|].
  specialize (H2 ltac:(lia)). pose proof (off_strict ps (upto ps o) Hw). lia.
Qed.
(* the number of lines before the block at byte o *)
Definition before (ps : list piece) (o : nat) : nat := match o with O => 0 | _ => upto ps o end.
Lemma firstn_whole : forall ps k, firstn (off ps k) (whole ps) = whole (firstn k ps).
Proof.
  induction ps as [|p ps IH]; intros [|k]; try reflexivity. rewrite off_S, whole_cons. cbn [firstn]. rewrite whole_cons.
  rewrite firstn_app, firstn_all2 by lia. f_equal. replace (length (render p) + off ps k - length (render p)) with (off ps k) by lia. apply IH.
Qed.
Lemma skipn_whole : forall ps k, skipn (off ps k) (whole ps) = whole (skipn k ps).
Proof.
  induction ps as [|p ps IH]; intros [|k]; try reflexivity. rewrite off_S, whole_cons. cbn [skipn].
  rewrite skipn_app, skipn_all2 by lia. cbn [app]. replace (length (render p) + off ps k - length (render p)) with (off ps k) by lia. apply IH.
Qed.
Lemma seek_before : forall ps o, well ps -> o < length (whole ps) -> seek (whole ps) o = off ps (before ps o).
Proof. intros ps o Hw Ho. unfold seek, before. destruct o as [|o]; [reflexivity|]. apply seek_upto; assumption. Qed.
Lemma off_off : forall ps j k, j <= k -> off (skipn j ps) (k - j) = off ps k - off ps j.
Proof.
  induction ps as [|p ps IH]; intros j k H.
  - rewrite skipn_nil. unfold off. rewrite !firstn_nil. reflexivity.
  - destruct j as [|j]; [cbn [skipn]; rewrite Nat.sub_0_r; unfold off at 3; cbn; lia|]. destruct k as [|k]; [lia|].
    cbn [skipn]. replace (S k - S j) with (k - j) by lia. rewrite IH by lia. rewrite !off_S. lia.
Qed.
Lemma before_mono : forall ps o o', o <= o' -> before ps o <= before ps o'.
Proof.
  intros ps o o' H. unfold before. destruct o as [|o]; [lia|]. destruct o' as [|o']; [lia|].
  destruct (upto_spec ps (S o)) as [A1 [A2 A3]]. destruct (upto_spec ps (S o')) as [B1 [B2 B3]].
  destruct (le_lt_dec (upto ps (S o)) (upto ps (S o'))) as [G|G]; [exact G|]. specialize (A1 _ G). specialize (B2 ltac:(lia)). lia.
Qed.
Definition segment (ps : list piece) (o bs : nat) : list piece :=
  firstn (before ps (o + bs) - before ps o) (skipn (before ps o) ps).
Lemma block_whole : forall ps o bs, well ps -> o < length (whole ps) -> read_block (whole ps) o bs = whole (segment ps o bs).
Proof.
  intros ps o bs Hw Ho. unfold read_block, segment. rewrite (seek_before ps o Hw Ho). rewrite skipn_whole.
  pose proof (before_mono ps o (o + bs) ltac:(lia)) as Hm.
  rewrite <- firstn_whole, off_off by lia.
  destruct (le_lt_dec (length (whole ps)) (o + bs)) as [Hbig|Hsmall].
  - (* to the end *)
    assert (Hb : before ps (o + bs) = length ps) by (unfold before; destruct (o + bs) eqn:E; [lia|]; apply upto_big; [assumption|lia]).
    rewrite Hb, (off_all ps (length ps)) by lia.
    assert (Hs : length (whole ps) <= seek (whole ps) (o + bs)).
    { unfold seek. destruct (o + bs) eqn:E; [lia|]. destruct (find_nl _) as [i|]; lia. }
    assert (Hl : length (whole (skipn (before ps o) ps)) = length (whole ps) - off ps (before ps o)) by (rewrite <- skipn_whole, skipn_length; reflexivity).
    rewrite !firstn_all2 by (rewrite Hl; lia). reflexivity.
  - rewrite seek_before by assumption. reflexivity.
Qed.

(* ---- the size of one block ---- *)
Lemma empties_keep : forall ls, (forall l, In l ls -> blank l = true -> l = []) ->
  length (filter (fun l => negb (true && blank l)) ls) + length (filter is_empty ls) = length ls.
Proof.
  intros ls H. induction ls as [|l ls IH]; [reflexivity|]. cbn [filter length andb].
  specialize (IH (fun x Hx => H x (or_intror Hx))). cbn [andb] in IH.
  destruct l as [|c l]; cbn [blank forallb negb is_empty length]; [lia|].
  destruct (blank (c :: l)) eqn:E; [discriminate (H _ (or_introl eq_refl) E)|]. unfold blank in E. cbn [forallb] in E. rewrite E. cbn [negb length]. lia.
Qed.
Lemma block_size_ok : forall ps skip_blank first skip, well ps -> skip <= length ps ->
  (skip_blank = true -> (forall l, In l (map fst ps) -> blank l = true -> l = []) /\ spaced (tl ps) /\
     (first = false -> starts_nl (whole ps) = false) /\ (forall l, In l (firstn skip (map fst ps)) -> blank l = false)) ->
  (block_size skip_blank first skip (whole ps) + (if open_end ps then 1 else 0) = zlen (wanted skip_blank skip (map fst ps)))%Z.
Proof.
  intros ps skip_blank first skip Hw Hskip Hb. unfold block_size. pose proof (count1_whole ps Hw) as Hc1. unfold zlen, wanted.
  destruct skip_blank.
  - destruct (Hb eq_refl) as [B1 [B2 [B3 B4]]]. pose proof (count2_whole ps Hw B2) as Hc2.
    assert (Hst : (if first && starts_nl (whole ps) then 1 else 0)%Z = Z.of_nat (if starts_nl (whole ps) then 1 else 0)).
    { destruct first; cbn [andb]; [destruct (starts_nl _); reflexivity|]. rewrite B3 by reflexivity. reflexivity. }
    rewrite Hst. pose proof (empties_keep (skipn skip (map fst ps))) as He. rewrite skipn_length, map_length in He.
    assert (He2 : length (filter is_empty (skipn skip (map fst ps))) = empties ps).
    { unfold empties. transitivity (length (filter is_empty (map fst ps))).
      - rewrite <- (firstn_skipn skip (map fst ps)) at 2. rewrite filter_app, app_length.
        assert (E : filter is_empty (firstn skip (map fst ps)) = []); [|rewrite E; reflexivity].
        clear - B4. induction (firstn skip (map fst ps)) as [|l m IH]; [reflexivity|]. cbn [filter].
        destruct l as [|c l]; [specialize (B4 [] (or_introl eq_refl)); discriminate|]. apply IH. intros x Hx. apply B4. right. exact Hx.
      - clear. induction ps as [|p ps IH]; [reflexivity|]. cbn [map filter]. destruct (is_empty (fst p)); cbn [length]; lia. }
    assert (Hin : forall l, In l (skipn skip (map fst ps)) -> blank l = true -> l = []).
    { intros l Hl. apply B1. rewrite <- (firstn_skipn skip (map fst ps)). apply in_or_app. right. exact Hl. }
    specialize (He Hin). rewrite He2 in He. set (a := length (filter (fun l : bytes => negb (true && blank l)) (skipn skip (map fst ps)))) in *.
    clearbody a. clear Hst Hin He2 B1 B2 B3 B4 Hb. set (s := if starts_nl (whole ps) then 1 else 0) in *. clearbody s.
    destruct (open_end ps); lia.
  - assert (Hf : filter (fun l => negb (false && blank l)) (skipn skip (map fst ps)) = skipn skip (map fst ps)).
    { clear. induction (skipn skip (map fst ps)) as [|l m IH]; [reflexivity|]. cbn [filter andb negb]. cbn [andb negb] in IH. rewrite IH. reflexivity. }
    rewrite Hf, skipn_length, map_length. destruct (open_end ps); lia.
Qed.

(* ---- the loop ---- *)
Section Loop.
Variables (f : bytes) (bs : nat) (sb : bool).
Definition fits (first : bool) (skip : nat) (sg : list piece) : Prop :=
  well sg /\ skip <= length sg /\
  (sb = true -> (forall l, In l (map fst sg) -> blank l = true -> l = []) /\ spaced (tl sg) /\
     (first = false -> starts_nl (whole sg) = false) /\ (forall l, In l (firstn skip (map fst sg)) -> blank l = false)).
Definition rows_of (skip : nat) (sg : list piece) : list bytes := wanted sb skip (map fst sg).
Definition fine_limit (skip : nat) (Ss : list (list piece)) (n : Z) : Prop :=
  (0 < n)%Z /\ (forall j, 0 < j < length Ss -> n <> zlen (rows_of skip (concat (firstn j Ss)))) /\
  (open_end (concat Ss) = true -> (n + 1)%Z <> zlen (rows_of skip (concat Ss))).

Lemma rows_app : forall skip A B, skip <= length A -> rows_of skip (A ++ B) = rows_of skip A ++ rows_of 0 B.
Proof using.
  intros skip A B H. unfold rows_of, wanted. rewrite map_app, skipn_app, filter_app. f_equal. f_equal.
  replace (skip - length (map fst A)) with 0 by (rewrite map_length; lia). reflexivity.
Qed.
Lemma firstn_len_app : forall (A : Type) (a b : list A) n, length a <= n -> firstn n (a ++ b) = a ++ firstn (n - length a) b.
Proof using. intros A a b n H. rewrite firstn_app, firstn_all2 by exact H. reflexivity. Qed.

Lemma loop_ok : forall offs Ss first skip nrows,
  Forall2 (fun o sg => read_block f o bs = whole sg) offs Ss ->
  match Ss with [] => False | sg :: Ss => fits first skip sg /\ Forall (fits false 0) Ss end ->
  (forall sg, In sg (removelast Ss) -> open_end sg = false) -> last Ss [] <> [] ->
  match nrows with None => True | Some n => fine_limit skip Ss n end ->
  let (ps, ss) := part_loop f bs sb first skip nrows offs in
  ss = map zlen (map (part_value f bs sb) ps) /\ ps <> [] /\
  concat (map (part_value f bs sb) ps) = limit nrows (rows_of skip (concat Ss)).
Proof using.
  induction offs as [|o offs IH]; intros Ss first skip nrows H2 Hfit Hopen Hlast Hlim.
  { inversion H2. subst. destruct Hfit. }
  inversion H2 as [|? sg ? Ss' Hblock H2' E1 E2]. subst. destruct Hfit as [Hf Hfs]. clear H2.
  pose proof Hf as [Hw [Hsk Hbl]]. pose proof (block_size_ok sg sb first skip Hw Hsk Hbl) as Hsize. fold (rows_of skip sg) in Hsize.
  assert (Hval : forall n, part_value f bs sb {| p_off := o; p_skip := skip; p_nrows := n |} = limit n (rows_of skip sg)).
  { intros n. unfold part_value, read_csv. cbn [p_off p_skip p_nrows]. rewrite Hblock, lines_whole by exact Hw. reflexivity. }
  cbn [part_loop]. rewrite Hblock. set (size := block_size sb first skip (whole sg)) in *.
  pose (go := fun nr : option Z =>
    let size0 := (size + (if (match offs with [] => true | _ => false end) && negb (ends_nl (whole sg)) then 1 else 0))%Z in
    let (ps, ss) := part_loop f bs sb false 0 nr offs in ({| p_off := o; p_skip := skip; p_nrows := nrows |} :: ps, size0 :: ss)).
  (* what going on with a limit nr' for the rest gives *)
  assert (Hgo : forall nr', (match nrows, nr' with None, None => True | Some n, Some n' => (n' = n - size)%Z /\ (size <= n)%Z | _, _ => False end) ->
    let (ps, ss) := go nr' in ss = map zlen (map (part_value f bs sb) ps) /\ ps <> [] /\
      concat (map (part_value f bs sb) ps) = limit nrows (rows_of skip (concat (sg :: Ss')))).
  { intros nr' Hnr. unfold go. clear go. destruct offs as [|o' offs].
    - (* the last block *)
      inversion H2'. subst. cbn [part_loop]. cbn [last] in Hlast. rewrite ends_whole by (try exact Hw; exact Hlast). rewrite negb_involutive.
      cbn [map concat andb]. rewrite !Hval, !app_nil_r.
      assert (Hl : limit nrows (rows_of skip sg) = rows_of skip sg).
      { destruct nrows as [n|]; [|reflexivity]. destruct nr' as [n'|]; [|destruct Hnr]. cbn [limit]. apply firstn_all2.
        destruct Hlim as [_ [_ Ho]]. cbn [concat] in Ho. rewrite app_nil_r in Ho. unfold zlen in *. destruct (open_end sg); [specialize (Ho eq_refl)|]; lia. }
      rewrite Hl. split; [|split; [discriminate|reflexivity]]. f_equal. cbn [negb andb]. lia.
    - inversion H2' as [|? sg' ? Ss'' Hb' H2'' E1 E2]. subst.
      assert (Hno : open_end sg = false) by (apply Hopen; left; reflexivity). rewrite Hno in Hsize.
      assert (Hn' : match nr' with None => True | Some n => fine_limit 0 (sg' :: Ss'') n end).
      { destruct nr' as [n'|]; [|exact I]. destruct nrows as [n|]; [|destruct Hnr]. destruct Hnr as [-> Hle]. destruct Hlim as [L1 [L2 L3]].
        assert (Hsz : size = zlen (rows_of skip sg)) by lia. rewrite Hsz. split; [|split].
        - specialize (L2 1 ltac:(cbn; lia)). cbn [firstn concat] in L2. rewrite app_nil_r in L2. lia.
        - intros j Hj. specialize (L2 (Datatypes.S j) ltac:(cbn [length] in *; lia)). cbn [firstn concat] in L2. rewrite rows_app in L2 by exact Hsk. unfold zlen in L2 |- *. rewrite app_length in L2. cbn [firstn concat] in *. lia.
        - intros Ho. cbn [concat] in L3. unfold open_end in L3, Ho, Hno. rewrite existsb_app, Hno in L3. cbn [concat] in Ho. specialize (L3 Ho). rewrite rows_app in L3 by exact Hsk. unfold zlen in *. rewrite app_length in L3. cbn [concat]. lia. }
      specialize (IH (sg' :: Ss'') false 0 nr' H2').
      assert (IH' := IH ltac:(inversion Hfs; split; assumption) ltac:(intros X HX; apply Hopen; right; exact HX) Hlast Hn'). clear IH.
      destruct (part_loop f bs sb false 0 nr' (o' :: offs)) as [ps ss]. destruct IH' as [I1 [I2 I3]].
      assert (Hl : limit nrows (rows_of skip sg) = rows_of skip sg).
      { destruct nrows as [n|]; [|reflexivity]. destruct nr' as [n'|]; [|destruct Hnr]. cbn [limit]. apply firstn_all2. unfold zlen in Hsize. lia. }
      cbn [map concat andb]. rewrite Hval, Hl, I3, <- I1. split; [|split; [discriminate|]].
      + f_equal. lia.
      + change (sg ++ sg' ++ concat Ss'') with (sg ++ concat (sg' :: Ss'')). rewrite rows_app by exact Hsk.
        destruct nrows as [n|]; destruct nr' as [n'|]; try (destruct Hnr; fail); [|reflexivity]. destruct Hnr as [-> Hle]. cbn [limit].
        rewrite firstn_len_app by (unfold zlen in Hsize; lia). f_equal. f_equal. unfold zlen in Hsize. lia. }
  destruct nrows as [n|]; [|exact (Hgo None I)].
  destruct (Z.ltb_spec 0 n) as [Hpos|Hneg]; [|destruct Hlim; lia].
  destruct (Z.ltb_spec n size) as [Hlt|Hge]; [|refine (Hgo (Some (n - size)%Z) _); split; [reflexivity|lia]].
  cbn [map concat]. rewrite Hval, app_nil_r. cbn [limit].
  assert (Hlen : (zlen (firstn (Z.to_nat n) (rows_of skip sg)) = n)%Z).
  { unfold zlen in *. rewrite firstn_length_le; [lia|]. destruct (open_end sg); lia. }
  split; [rewrite Hlen; reflexivity|]. split; [discriminate|].
  cbn [concat]. rewrite rows_app by exact Hsk. rewrite firstn_app.
  replace (Z.to_nat n - length (rows_of skip sg)) with 0 by (unfold zlen in Hsize; destruct (open_end sg); lia). cbn [firstn]. rewrite app_nil_r. reflexivity.
Qed.
End Loop.
