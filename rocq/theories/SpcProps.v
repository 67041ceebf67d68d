(* Pair counts on the sky: properties C187-C189. *)
From Verif Require Import Base.
From Coq Require Import Reals String Lra Lia.
From Verif Require Import RandModel ThreeModel RandProofs ThreeProofs SkyModel SkySpec SkyProofs SkyMain MockMean SpcModel SpcSpec SpcProofs SpcMain SpcExamples.
Local Open Scope R_scope.
Local Notation length := List.length.

(* C187: for every number of ranks, the counts of SurveyDataPairCount are the sums over all pairs of objects *)
Theorem C187_survey nranks domain bin sep mode edges Nmu pimax cosmo nbins first second :
  grid_ok nranks domain -> proper mode edges Nmu pimax -> (mode <> Sang -> cosmo <> None) -> (mode = Sang -> forall e, In e edges -> e <= 180) ->
  (forall p q b, bin p q = Some b -> in_reach mode edges pimax p q) ->
  let D := match mode with Sang => fun _ => 1 | _ => dist_of cosmo end in
  regular D first -> regular D (or_first first second) ->
  SurveyDataPairCount nranks domain bin sep mode edges Nmu pimax cosmo nbins first second = Ok (map (fun b => totals bin sep b (at_distance D first) (at_distance D (or_first first second))) (seq 0 nbins)).
Proof. exact (survey_ok nranks domain bin sep mode edges Nmu pimax cosmo nbins first second). Qed.
Print Assumptions C187_survey.
Example C187_survey_ex :
  SurveyDataPairCount 2 halves ring_bin (fun _ _ => 1) S1d [1; 2] None None (Some (fun z => z)) 1 (sky3, [1; 2; 3]) None = Ok [(6, 6, 22)].
Proof.
  rewrite (C187_survey 2 halves ring_bin (fun _ _ => 1) S1d [1; 2] None None (Some (fun z => z)) 1 (sky3, [1; 2; 3]) None halves_ok).
  - cbn [dist_of or_first seq map]. rewrite sky3_pairs. reflexivity.
  - split; [discriminate|]. split; [|split; reflexivity]. intros e [<-|[<-|[]]]; lra.
  - discriminate.
  - discriminate.
  - exact ring_reach.
  - exact sky3_regular.
  - exact sky3_regular.
Qed.
Theorem C187_refused nranks domain bin sep mode edges Nmu pimax cosmo nbins first second :
  ~ proper mode edges Nmu pimax \/ (mode <> Sang /\ cosmo = None) -> SurveyDataPairCount nranks domain bin sep mode edges Nmu pimax cosmo nbins first second = Err ValueError.
Proof. exact (survey_err nranks domain bin sep mode edges Nmu pimax cosmo nbins first second). Qed.
Print Assumptions C187_refused.
Example C187_refused_ex : SurveyDataPairCount 2 halves ring_bin (fun _ _ => 1) Sproj [1; 2] None (Some (/ 2)) (Some (fun z => z)) 1 (sky3, [1; 2; 3]) None = Err ValueError.
Proof. apply C187_refused. left. intros (_ & _ & _ & m & E & H). injection E as <-. lra. Qed.

(* C188: the angular counts of SimulationBoxPairCount are those of the angles seen from the centre of the box *)
Theorem C188_box nranks domain (abin : R -> option nat) (asep : R -> R) bin sep edges L nbins first second o1 o2 :
  grid_ok nranks domain -> edges <> [] -> (forall e, In e edges -> 0 < e <= 180) ->
  (forall ra dec z ra' dec' z', bin (ra, dec, z) (ra', dec', z') = abin (scalar (place (ra, dec, 1)) (place (ra', dec', 1))) /\ sep (ra, dec, z) (ra', dec', z') = asep (scalar (place (ra, dec, 1)) (place (ra', dec', 1)))) ->
  (forall c b, abin c = Some b -> angle_within edges c) ->
  centre_of L (fst first) o1 -> around o1 first -> centre_of L (fst (or_first first second)) o2 -> around o2 (or_first first second) ->
  BoxAngularPairCount nranks domain bin sep edges L nbins first second
  = Ok (map (fun b => totals (fun u v => abin (scalar u v)) (fun u v => asep (scalar u v)) b (seen_from o1 first) (seen_from o2 (or_first first second))) (seq 0 nbins)).
Proof. exact (box_ok nranks domain abin asep bin sep edges L nbins first second o1 o2). Qed.
Print Assumptions C188_box.
Definition wide_bin (p q : point) : option nat := wide (scalar (place (fst p, 1)) (place (fst q, 1))).
Example C188_box_ex : BoxAngularPairCount 2 halves wide_bin (fun _ _ => 1) [60; 120] (4, 4, 4) 1 (box3, [1; 2; 3]) None = Ok [(6, 6, 22)].
Proof.
  rewrite (C188_box 2 halves wide (fun _ => 1) wide_bin (fun _ _ => 1) [60; 120] (4, 4, 4) 1 (box3, [1; 2; 3]) None (2, 2, 2) (2, 2, 2) halves_ok).
  - cbn [or_first seq map]. do 2 f_equal. unfold totals, total, seen_from. cbn [fst snd]. rewrite box3_directions. cbn [fst snd map combine list_prod app fold_right].
    assert (W0 : forall u v, scalar u v = 0 -> wide (scalar u v) = Some 0%nat) by (intros u v ->; unfold wide; rewrite (proj2 (rltb_iff _ _)), (proj2 (rltb_iff _ _)) by lra; reflexivity).
    assert (W1 : forall u v, scalar u v = 1 -> wide (scalar u v) = None) by (intros u v ->; unfold wide; rewrite (proj2 (rltb_false 1 (/ 2))) by lra; destruct (rltb _ 1); reflexivity).
    rewrite !(W0 (1, 0, 0) (0, 1, 0)), !(W0 (1, 0, 0) (0, 0, 1)), !(W0 (0, 1, 0) (1, 0, 0)), !(W0 (0, 1, 0) (0, 0, 1)), !(W0 (0, 0, 1) (1, 0, 0)), !(W0 (0, 0, 1) (0, 1, 0)) by (unfold scalar; ring). rewrite !(W1 (1, 0, 0) (1, 0, 0)), !(W1 (0, 1, 0) (0, 1, 0)), !(W1 (0, 0, 1) (0, 0, 1)) by (unfold scalar; ring).
    cbn [Nat.eqb]. apply f_equal2; [apply f_equal2|]; ring.
  - discriminate.
  - intros e [<-|[<-|[]]]; lra.
  - intros. split; reflexivity.
  - exact wide_within.
  - exact box3_centre.
  - exact box3_around.
  - exact box3_centre.
  - exact box3_around.
Qed.

(* C189 (refuted): counting pairs leaves the columns of the catalog as they were *)
Theorem C189_columns_refuted : exists L pos columns c out,
  columns "ra"%string = Some c /\ length c = length pos /\ after_angular L pos columns = Ok out /\ out "ra"%string <> Some c.
Proof.
  exists (4, 4, 4), box3, (fun c => if String.eqb c "ra" then Some [400; 400; 400] else None), [400; 400; 400]. unfold after_angular.
  rewrite (shift_ok (4, 4, 4) box3 (2, 2, 2)) by (try discriminate; exact box3_centre). cbn [rbind].
  eexists. split; [reflexivity|]. split; [reflexivity|]. split; [reflexivity|]. intros E.
  assert (E' : fst (equatorial (less (3, 2, 2) (2, 2, 2)) (0, 0, 0)) = 400) by exact (f_equal (fun o => match o with Some (x :: _) => x | _ => 0 end) E). clear E.
  pose proof (equatorial_ok (less (3, 2, 2) (2, 2, 2)) (0, 0, 0)) as Q. destruct (equatorial (less (3, 2, 2) (2, 2, 2)) (0, 0, 0)) as [ra dec]. cbn [fst] in E'. destruct Q as (Q & _). lra.
Qed.
Print Assumptions C189_columns_refuted.
