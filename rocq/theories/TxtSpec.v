(* Tables in plain text files. *)
From Coq Require Import Ascii String.
From Verif Require Import Base TxtModel.
Local Open Scope nat_scope.
Local Notation length := List.length.
Local Notation concat := List.concat.

(* a variable of real or complex numbers, as texts *)
Inductive tcol := TReal (l : list word) | TComplex (l : list (word * word)).
Definition table := list (word * tcol).
Definition size (c : tcol) : nat := match c with TReal l => length l | TComplex l => length l end.
(* its names in the header and its fields in row i *)
Definition names_of (nc : word * tcol) : list word :=
  match snd nc with TReal _ => [fst nc] | TComplex _ => [fst nc ++ lit ".real"; fst nc ++ lit ".imag"] end.
Definition fields_of (i : nat) (nc : word * tcol) : list word :=
  match snd nc with TReal l => [nth i l []] | TComplex l => [fst (nth i l ([], [])); snd (nth i l ([], []))] end.
(* a line of words *)
Definition space : ascii := " "%char.
Definition newline : ascii := ascii_of_nat 10.
Fixpoint words (l : list word) : word := match l with [] => [] | [w] => w | w :: l => w ++ space :: words l end.
Definition line (l : list word) : word := words l ++ [newline].
Definition comment (l : list word) : word := hash :: space :: line l.

Section Files.
Variable itoa : nat -> word.
(* key, text and type *)
Definition meta := list (word * word * word).
Definition meta_fields (m : word * word * word) : list word := [fst (fst m); snd (fst m); snd m].
Definition file_1d (t : table) (n : nat) (edges : list word) (m : meta) : list word :=
  comment (flat_map names_of t)
  :: map (fun i => line (flat_map (fields_of i) t)) (seq 0 n)
  ++ comment [lit "edges"; itoa (length edges)] :: map (fun e => comment [e]) edges
  ++ comment [lit "metadata"; itoa (length m)] :: map (fun x => comment (meta_fields x)) m.
Definition file_2d (t : table) (nk nmu : nat) (ke me : list word) (m : meta) : list word :=
  line [itoa nk; itoa nmu] :: line (flat_map names_of t)
  :: map (fun i => line (flat_map (fields_of i) t)) (seq 0 (nk * nmu))
  ++ line [lit "kedges"; itoa (length ke)] :: map (fun e => line [e]) ke
  ++ line [lit "muedges"; itoa (length me)] :: map (fun e => line [e]) me
  ++ line [lit "metadata"; itoa (length m)] :: map (fun x => line (meta_fields x)) m.
End Files.

(* words without white space *)
Definition good (w : word) : Prop := w <> [] /\ Forall (fun c => is_space c = false) w.
Definition occurs (a b : word) : Prop := exists x y, b = x ++ a ++ y.
(* names of variables: different, without the words that mark other things *)
Definition good_name (w : word) : Prop := good w /\ ~ occurs (lit ".real") w.
Definition texts (c : tcol) : list word := match c with TReal l => l | TComplex l => flat_map (fun p => [fst p; snd p]) l end.
Definition good_table (t : table) (n : nat) : Prop :=
  t <> [] /\ NoDup (map fst t) /\ Forall (fun nc => good_name (fst nc) /\ size (snd nc) = n /\ Forall good (texts (snd nc))) t.
Definition digits (w : word) : Prop := w <> [] /\ Forall (fun c => 48 <= nat_of_ascii c <= 57) w.

(* the header of a table does not look like another comment *)
Definition header_free (t : table) : Prop := forall nc, In nc t -> ~ occurs (lit "edges") (fst nc) /\ ~ occurs (lit "metadata") (fst nc).

Section Meaning.
Context {F V : Type}.
Variable to_float : word -> option F.
Variable cast : word -> word -> res V.
Definition means (c : tcol) (d : column F) : Prop :=
  match c, d with
  | TReal l, Real xs => Forall2 (fun w x => to_float w = Some x) l xs
  | TComplex l, Complex xs => Forall2 (fun w x => to_float (fst w) = Some (fst x) /\ to_float (snd w) = Some (snd x)) l xs
  | _, _ => False
  end.
(* all texts are numbers *)
Definition numbers (t : table) : Prop := Forall (fun nc => Forall (fun w => exists x, to_float w = Some x) (texts (snd nc))) t.
(* the same variables in the same order *)
Definition reads (t : table) (d : dict (column F)) : Prop := Forall2 (fun nc kd => fst nc = fst kd /\ means (snd nc) (snd kd)) t d.
(* meta-data of types other than bool, under names that are not those of arguments *)
Definition good_meta (m : meta) (vs : list V) : Prop :=
  NoDup (map (fun x => fst (fst x)) m) /\
  Forall2 (fun x v => (good (fst (fst x)) /\ good (snd (fst x)) /\ good (snd x)) /\ snd x <> lit "bool" /\ cast (snd x) (snd (fst x)) = Ok v /\
    ~ In (fst (fst x)) (map lit ["edges"; "columns"; "dims"; "data"; "self"; "coords"; "fields_to_sum"]%string)) m vs.
Definition attrs_are (m : meta) (vs : list V) (a : dict (meta_value V)) : Prop := a = map (fun xv => (fst (fst (fst xv)), MOther (snd xv))) (combine m vs).
(* keywords are not those of arguments *)
Definition kw_ok (kw : dict (meta_value V)) : Prop := NoDup (map fst kw) /\ forall k, In k (["dims"; "data"; "edges"; "self"; "coords"; "fields_to_sum"]%string) -> ~ In (lit k) (map fst kw).
End Meaning.
