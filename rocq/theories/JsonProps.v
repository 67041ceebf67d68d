(* C26, C131-C136 *)
From Coq Require Import String.
From Verif Require Import Base Num JsonModel JsonSpec JsonProofs.
Local Open Scope string_scope.
Local Open Scope list_scope.
Local Open Scope nat_scope.

(* ---- C26: what is saved is restored ---- *)
Theorem C26_round_trip : forall cast v, restorable cast v -> (let! j := encode v in decode cast j) = Ok v.
Proof. exact round_trip. Qed.
Print Assumptions C26_round_trip.

(* numpy numbers come back as Python numbers *)
Theorem C26_numpy_numbers : forall cast t s, match s with SInt _ | SFloat _ => True | _ => False end ->
  (let! j := encode (PNumpy t s) in decode cast j) = Ok (PScalar s).
Proof. intros cast t [b|z|x|s|re im] H; try destruct H; reflexivity. Qed.
Print Assumptions C26_numpy_numbers.

(* tuples come back as lists *)
Theorem C26_tuple : forall cast l, restorable cast (PList l) -> (let! j := encode (PTuple l) in decode cast j) = Ok (PList l).
Proof. intros cast l H. exact (round_trip cast (PList l) H). Qed.
Print Assumptions C26_tuple.

Example C26_numpy_numbers_ex : (let! j := encode (PList [PNumpy "<i4" (SInt 3); PTuple [PNumpy "<f4" (SFloat PosInf)]]) in decode (fun _ s => Ok s) j) =
  Ok (PList [PScalar (SInt 3); PList [PScalar (SFloat PosInf)]]).
Proof. reflexivity. Qed.

(* numpy: integers become floats in arrays of floats *)
Definition np_cast (t : string) (s : scalar) : res scalar :=
  match s with
  | SInt z => if String.eqb t "<f8" || String.eqb t "<f4" then Ok (SFloat (Fin (zq z))) else Ok s
  | _ => Ok s
  end.
Definition attrs1 : pyval :=
  PDict [(KStr "edges", PArray (Simple "<f8") [2; 3] (map (fun z => One (SFloat (Fin (zq z)))) [1; 2; 3; 4; 5; 6]%Z));
         (KStr "data", PArray (Fields [("k", "<f8"); ("power", "<c16")]) [2]
            [Row [SFloat (Fin 1%Qc); SComplex (Fin 1%Qc) (Fin (zq 2))]; Row [SFloat NaN; SComplex NaN (Fin 0%Qc)]]);
         (KStr "empty", PArray (Simple "<i8") [2; 0] []);
         (KStr "box", PQuantity "Mpc" "<f4" [1] [SFloat (Fin 1%Qc)]);
         (KStr "opts", PList [PNone; PScalar (SBool true); PScalar (SStr "x"); PDict [(KStr "__shape__", PScalar (SInt 3))]])].
Example C26_restorable_ex : restorable np_cast attrs1.
Proof.
  apply R_dict; [|repeat constructor; cbn; intuition discriminate].
  intros k v H. split; [|repeat (destruct H as [H|H]; [injection H as <- <-; eexists; split; [reflexivity|cbn; intuition discriminate]|]); destruct H].
  destruct H as [H|[H|[H|[H|[H|[]]]]]]; injection H as <- <-.
  - apply R_array; [repeat constructor|reflexivity|]. repeat constructor.
  - apply R_array; [repeat constructor|reflexivity|]. repeat (constructor; try reflexivity); eexists; reflexivity.
  - apply R_array; [repeat constructor|reflexivity|]. repeat constructor.
  - apply R_quantity; [cbn; tauto|discriminate|repeat constructor|reflexivity|]. repeat constructor.
  - apply R_list. constructor; [constructor|]. constructor; [constructor; exact I|]. constructor; [constructor; exact I|]. constructor; [|constructor].
    apply R_dict; [|repeat constructor; cbn; tauto]. intros k v [H|[]]. injection H as <- <-. split; [constructor; exact I|]. eexists. split; [reflexivity|cbn; intuition discriminate].
Qed.
Example C26_round_trip_ex : (let! j := encode attrs1 in decode np_cast j) = Ok attrs1 /\ is_ok (encode attrs1) = true.
Proof. split; [exact (C26_round_trip np_cast attrs1 C26_restorable_ex)|reflexivity]. Qed.

(* ---- C131: arrays keep their shape: not without elements ---- *)
Theorem C131_empty_array_refuted : exists dt shape, prod shape = 0 /\ forall cast,
  (let! j := encode (PArray dt shape []) in decode cast j) = Ok (PArray dt [0] []) /\ shape <> [0].
Proof. exists (Simple "<f8"), [0; 3]. split; [reflexivity|]. intros cast. split; [reflexivity|discriminate]. Qed.
Print Assumptions C131_empty_array_refuted.

(* ---- C132: dictionaries with any string keys ---- *)
Theorem C132_key_changes_value_refuted : exists d re im, forall cast, (let! j := encode (PDict d) in decode cast j) = Ok (PScalar (SComplex re im)).
Proof. exists [(KStr "__complex__", PList [PScalar (SFloat (Fin 1%Qc)); PScalar (SFloat (Fin 0%Qc))])], (Fin 1%Qc), (Fin 0%Qc). intros cast.
  change (Ok (PScalar (SComplex (fadd (Fin 1%Qc) (zero_times (Fin 0%Qc))) (Fin 0%Qc))) = Ok (PScalar (SComplex (Fin 1%Qc) (Fin 0%Qc)))). rewrite fadd_zero. reflexivity. Qed.
Print Assumptions C132_key_changes_value_refuted.
Theorem C132_key_unreadable_refuted : exists d, forall cast, is_ok (encode (PDict d)) = true /\ (let! j := encode (PDict d) in decode cast j) = Err KeyError.
Proof. exists [(KStr "__dtype__", PScalar (SStr "f8"))]. intros cast. split; reflexivity. Qed.
Print Assumptions C132_key_unreadable_refuted.

(* ---- C133: tuples and integer keys ---- *)
Theorem C133_tuple_refuted : exists v, forall cast, is_ok (encode v) = true /\ (let! j := encode v in decode cast j) <> Ok v.
Proof. exists (PTuple [PScalar (SInt 1)]). intros cast. split; [reflexivity|discriminate]. Qed.
Print Assumptions C133_tuple_refuted.
Theorem C133_integer_keys_refuted : exists d, forall cast, (let! j := encode (PDict d) in decode cast j) = Ok (PDict [(KStr "1", PNone)]) /\
  d <> [(KStr "1", PNone)].
Proof. exists [(KInt 1, PNone)]. intros cast. split; [reflexivity|discriminate]. Qed.
Print Assumptions C133_integer_keys_refuted.

(* ---- C134: quantities keep their type ---- *)
Theorem C134_scalar_refuted : exists unit x, forall cast,
  (let! j := encode (PQuantity unit "<f4" [] [SFloat x]) in decode cast j) = Ok (PQuantity unit "<f8" [] [SFloat x]).
Proof. exists "Mpc", (Fin 1%Qc). intros cast. reflexivity. Qed.
Print Assumptions C134_scalar_refuted.
Theorem C134_integers_refuted : exists unit l, Forall (holds np_cast "<i8") l /\
  (let! j := encode (PQuantity unit "<i8" [2] l) in decode np_cast j) = Ok (PQuantity unit "<f8" [2] [SFloat (Fin (zq 1)); SFloat (Fin (zq 2))]).
Proof. exists "K", [SInt 1; SInt 2]. split; [repeat constructor|reflexivity]. Qed.
Print Assumptions C134_integers_refuted.

(* ---- C135: complex numbers are restored ---- *)
Theorem C135_infinite_imaginary_refuted : exists re im, forall cast,
  (let! j := encode (PScalar (SComplex re im)) in decode cast j) = Ok (PScalar (SComplex NaN im)) /\ re <> NaN.
Proof. exists (Fin 1%Qc), PosInf. intros cast. split; [reflexivity|discriminate]. Qed.
Print Assumptions C135_infinite_imaginary_refuted.

(* ---- C136: every numpy scalar can be saved ---- *)
Theorem C136_numpy_bool_refuted : exists t s, encode (PNumpy t s) = Err TypeError /\ s = SBool true.
Proof. exists "|b1", (SBool true). split; reflexivity. Qed.
Print Assumptions C136_numpy_bool_refuted.
Theorem C136_complex64_refuted : exists t re im, encode (PNumpy t (SComplex re im)) = Err TypeError /\
  is_ok (encode (PScalar (SComplex re im))) = true.
Proof. exists "<c8", (Fin 1%Qc), (Fin 1%Qc). split; reflexivity. Qed.
Print Assumptions C136_complex64_refuted.
