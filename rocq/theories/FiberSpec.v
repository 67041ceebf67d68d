From Verif Require Import Base Num FiberModel.
Local Open Scope nat_scope.

(* objs: position and group of every object of the catalog (0: alone);
   out: flag and neighbour of every object.  r2 is the square of the radius. *)
Record assigned (r2 : Qc) (objs : list (point * Z)) (out : list (Z * Z)) : Prop := {
  as_length : length out = length objs;
  as_flag : forall i c n, nth_error out i = Some (c, n) -> c = 0%Z \/ c = 1%Z;
  (* an object that is alone keeps its fiber *)
  as_alone : forall i p, nth_error objs i = Some (p, 0%Z) -> nth_error out i = Some (0, -1)%Z;
  (* objects of a group that keep their fibers do not collide *)
  as_apart : forall i j p q g n m, i <> j -> nth_error objs i = Some (p, g) -> nth_error objs j = Some (q, g) -> g <> 0%Z ->
    nth_error out i = Some (0%Z, n) -> nth_error out j = Some (0%Z, m) -> (r2 < d2 p q)%Qc;
  as_none : forall i n, nth_error out i = Some (0%Z, n) -> n = (-1)%Z;
  (* the neighbour reported for a collided object is the nearest one of its
     group that keeps its fiber *)
  as_nearest : forall i p g n, nth_error objs i = Some (p, g) -> nth_error out i = Some (1%Z, n) ->
    g <> 0%Z /\ exists j q, n = Z.of_nat j /\ nth_error objs j = Some (q, g) /\ nth_error out j = Some (0, -1)%Z /\
      forall j' q', nth_error objs j' = Some (q', g) -> nth_error out j' = Some (0, -1)%Z -> (d2 p q <= d2 p q')%Qc;
  (* a collided object of a group of three or more is within the radius of another member *)
  as_reason : forall i p g n a b, nth_error objs i = Some (p, g) -> nth_error out i = Some (1%Z, n) ->
    i <> a -> i <> b -> a <> b -> option_map snd (nth_error objs a) = Some g -> option_map snd (nth_error objs b) = Some g ->
    exists j q, j <> i /\ nth_error objs j = Some (q, g) /\ (d2 p q <= r2)%Qc
}.
(* groups as friends-of-friends with the radius as linking length gives them:
   objects within the radius share a label other than 0, and labels other than
   0 are shared by at least two objects *)
Definition at_least_two (objs : list (point * Z)) : Prop :=
  forall i p g, nth_error objs i = Some (p, g) -> g <> 0%Z -> exists j q, j <> i /\ nth_error objs j = Some (q, g).
Definition linked (r2 : Qc) (objs : list (point * Z)) : Prop :=
  forall i j p q g h, i <> j -> nth_error objs i = Some (p, g) -> nth_error objs j = Some (q, h) -> (d2 p q <= r2)%Qc -> g = h /\ g <> 0%Z.
