From Coq Require Import Reals List Bool Lra Lia.
From Verif Require Import Base SlabModel SlabSpec SlabProofs.
Import ListNotations.
Local Open Scope nat_scope.

(* ==== C246 ==== *)
Theorem C246_slabs xs z a sym : (length xs = 2 \/ length xs = 3) -> means (length xs) z a -> (forall y, sym = Some y -> exists b, means (length xs) y b) ->
  exists slabs, slab_iterator (mesh_coords xs) z sym = Ok slabs /\ length slabs = length (nth a xs []) /\
  forall i s, nth_error slabs i = Some s ->
    slab_shape s = remove_nth a (mesh_dims xs) /\
    (exists t, norm2 s = Ok t /\ shape t = slab_shape s /\ forall j, inside j (slab_shape s) -> val t j = rdot (position xs (insert_nth a i j)) (position xs (insert_nth a i j))) /\
    (forall los, length los = length xs -> exists t, mu s los = Ok t /\ shape t = slab_shape s /\ forall j, inside j (slab_shape s) -> is_mu (position xs (insert_nth a i j)) los (val t j)) /\
    (exists w, hermitian_weights s = Ok w /\ (forall t, w = inr t -> shape t = slab_shape s) /\ forall j, inside j (slab_shape s) -> is_weight (length xs) sym (position xs (insert_nth a i j)) (weight_at w j)) /\
    (forall (V : Type) (v : nd V), shape v = mesh_dims xs -> exists t, at_index s v = Ok t /\ shape t = slab_shape s /\ forall j, val t j = val v (insert_nth a i j)).
Proof. exact (slabs_ok xs z a sym). Qed.
Print Assumptions C246_slabs.
Theorem C246_cells xs a g : a < length xs -> cell xs g ->
  exists i j, (i < length (nth a xs []) /\ inside j (remove_nth a (mesh_dims xs)) /\ g = insert_nth a i j) /\
  forall i' j', inside j' (remove_nth a (mesh_dims xs)) -> g = insert_nth a i' j' -> i' = i /\ j' = j.
Proof. exact (cells_once xs a g). Qed.
Print Assumptions C246_cells.
Theorem C246_refused_axis xs z sym : (length xs = 2 \/ length xs = 3) -> (forall a, ~ means (length xs) z a) -> slab_iterator (mesh_coords xs) z sym = Err AssertionError.
Proof. exact (refused_axis xs z sym). Qed.
Print Assumptions C246_refused_axis.
Theorem C246_refused_dims cs z sym : length cs <> 2 -> length cs <> 3 -> slab_iterator cs z sym = Err RuntimeError.
Proof. exact (refused_dims cs z sym). Qed.
Print Assumptions C246_refused_dims.
(* the mask of the modes that stand for two *)
Theorem C246_nonsingular xs z a y b : (length xs = 2 \/ length xs = 3) -> means (length xs) z a -> means (length xs) y b ->
  exists slabs, slab_iterator (mesh_coords xs) z (Some y) = Ok slabs /\
  forall i s, nth_error slabs i = Some s -> exists sym t, s_sym s = Some sym /\ nonsingular s sym = Ok t /\ shape t = remove_nth a (mesh_dims xs) /\
    forall j, inside j (shape t) -> val t j = true <-> (0 < nth b (position xs (insert_nth a i j)) 0)%R.
Proof. exact (nonsingular_slabs xs z a y b). Qed.
Print Assumptions C246_nonsingular.
(* a mesh of 1 x 2 x 3 cells, cut along the last axis, compressed along the same *)
Definition xs0 : list (list R) := [[0]; [0; 5]; [0; 1; -2]]%R.
Example C246_ex : means 3 (-1) 2 /\ (forall y, Some (-1)%Z = Some y -> exists b, means 3 y b) /\ mesh_dims xs0 = [1; 2; 3] /\
  (exists slabs, slab_iterator (mesh_coords xs0) (-1) (Some (-1)%Z) = Ok slabs /\ length slabs = 3) /\ cell xs0 [0; 1; 2] /\ position xs0 [0; 1; 2] = [0; 5; -2]%R /\ rdot [0; 5; -2]%R [0; 5; -2]%R = 29%R /\
  (forall a, ~ means 3 3 a).
Proof.
  assert (M : means 3 (-1) 2) by (split; lia). split; [exact M|]. split; [intros y H; injection H as <-; exists 2; exact M|]. split; [reflexivity|].
  split; [destruct (C246_slabs xs0 (-1) 2 (Some (-1)%Z)) as (sl & E & L & _); [right; reflexivity|exact M|intros y H; injection H as <-; exists 2; exact M|exists sl; split; [exact E|exact L]]|]. split; [repeat constructor|]. split; [reflexivity|]. split; [unfold rdot; cbn [combine fold_right fst snd]; lra|].
  intros a [H1 H2]. lia.
Qed.
