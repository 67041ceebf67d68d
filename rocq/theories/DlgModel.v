(* Model of the delegates of nbodykit.cosmology.Cosmology (cosmology/cosmology.py:115-116, 198-256, 425-432):
   how attributes are found and set.  The classes of classylss are known by the names they have (members). *)
From Coq Require Import String.
From Verif Require Import Base.
Local Open Scope string_scope.

(* dro, 115 *)
Inductive iface := AstropyCompat | Thermo | Spectra | Perturbs | Primordial | Background | ClassEngine.
Definition dro : list iface := [AstropyCompat; Thermo; Spectra; Perturbs; Primordial; Background; ClassEngine].
Definition name_of (i : iface) : string :=
  match i with AstropyCompat => "AstropyCompat" | Thermo => "Thermo" | Spectra => "Spectra" | Perturbs => "Perturbs"
  | Primordial => "Primordial" | Background => "Background" | ClassEngine => "ClassEngine" end.
Definition iface_eqb (i j : iface) : bool := (name_of i =? name_of j)%string.
(* dro_dict, 116 *)
Definition by_name (n : string) : option iface := find (fun i => name_of i =? n) dro.

(* an object of a class, made with the engine of number [eng]; [serial] tells objects apart *)
Record inst := { cls : iface; eng : Z; serial : nat }.
Inductive val :=
| VInst (x : inst)                  (* a delegate *)
| VAttr (x : inst) (n : string)     (* the attribute n of a delegate *)
| VSum (a b : val)
| VOwn (n : string)                 (* a method or constant of the class Cosmology *)
| VOther (k : Z).                   (* anything else *)

Record state := { attrs : list (string * val); delegates : list (iface * inst); next : nat }.
Definition lookup (n : string) (l : list (string * val)) : option val := option_map snd (find (fun p => fst p =? n) l).
Definition delegate (i : iface) (l : list (iface * inst)) : option inst := option_map snd (find (fun p => iface_eqb (fst p) i) l).

(* names of the class (those with underscores are left out) and its two properties *)
Definition own (n : string) : bool :=
  existsb (String.eqb n) ["dro"; "dro_dict"; "match"; "to_astropy"; "from_astropy"; "from_file"; "from_dict"; "clone"].
Definition is_property (n : string) : bool := (n =? "sigma8") || (n =? "Omega0_cb").

Section Members.
(* hasattr(iface, name) *)
Variable members : iface -> string -> bool.

(* self.delegates[iface], made when missing, 212-215 and 220-222; the classes take a ClassEngine only *)
Definition get_delegate (s : state) (i : iface) : res inst * state :=
  match delegate i (delegates s) with
  | Some x => (Ok x, s)
  | None =>
    match lookup "engine" (attrs s) with
    | Some (VInst g) =>
      if iface_eqb (cls g) ClassEngine then
        let d := {| cls := i; eng := eng g; serial := next s |} in
        (Ok d, {| attrs := attrs s; delegates := (i, d) :: delegates s; next := S (next s) |})
      else (Err TypeError, s)
    | _ => (Err TypeError, s)
    end
  end.
(* __getattr__, 207-226 *)
Definition dunder_getattr (s : state) (n : string) : res val * state :=
  match by_name n with
  | Some i => let '(r, s') := get_delegate s i in ((let! d := r in Ok (VInst d)), s')
  | None =>
    match find (fun i => members i n) dro with
    | Some i => let '(r, s') := get_delegate s i in ((let! d := r in Ok (VAttr d n)), s')
    | None => (Err AttributeError, s)
    end
  end.
(* the lookup of Python for a name that is no property *)
Definition plain (s : state) (n : string) : res val * state :=
  match lookup n (attrs s) with
  | Some v => (Ok v, s)
  | None => if own n then (Ok (VOwn n), s) else dunder_getattr s n
  end.
(* v.n of a value *)
Definition attr_of (v : val) (n : string) : res val :=
  match v with VInst x => if members (cls x) n then Ok (VAttr x n) else Err AttributeError | _ => Err AttributeError end.
Definition via (s : state) (c n : string) : res val * state :=
  let '(r, s') := plain s c in ((let! v := r in attr_of v n), s').
(* self.n: the properties sigma8 and Omega0_cb, 231-252 (__getattr__ if they raise AttributeError), or any other name *)
Definition fallback (n : string) (rs : res val * state) : res val * state :=
  match rs with (Err AttributeError, s) => dunder_getattr s n | _ => rs end.
Definition get (s : state) (n : string) : res val * state :=
  if n =? "sigma8" then fallback n (via s "Spectra" "sigma8")
  else if n =? "Omega0_cb" then
    fallback n (match via s "Background" "Omega0_cdm" with
                | (Ok a, s1) => let '(r, s2) := via s1 "Background" "Omega0_b" in ((let! b := r in Ok (VSum a b)), s2)
                | (Err e, s1) => (Err e, s1)
                end)
  else plain s n.
(* __setattr__, 198-205; the properties have no setter *)
Definition set (s : state) (n : string) (v : val) : res unit * state :=
  if existsb (fun i => members i n) dro then (Err ValueError, s)
  else if is_property n then (Err AttributeError, s)
  else (Ok tt, {| attrs := (n, v) :: attrs s; delegates := delegates s; next := next s |}).

(* __setstate__, 425-432: engine number e *)
Definition make (e : Z) : res state :=
  let g := {| cls := ClassEngine; eng := e; serial := 0 |} in
  let s := {| attrs := []; delegates := [(ClassEngine, g)]; next := 1 |} in
  match set s "engine" (VInst g) with
  | (Err x, _) => Err x
  | (Ok _, s) => match set s "delegates" (VOther 0) with
    | (Err x, _) => Err x
    | (Ok _, s) => match set s "pars" (VOther 1) with (Err x, _) => Err x | (Ok _, s) => Ok s end
    end
  end.

(* programs: c.n, c.a.n and c.n = v *)
Inductive op := OGet (n : string) | OVia (c n : string) | OSet (n : string) (v : val).
Definition step (s : state) (o : op) : res val * state :=
  match o with
  | OGet n => get s n
  | OVia c n => let '(r, s') := get s c in ((let! v := r in attr_of v n), s')
  | OSet n v => let '(r, s') := set s n v in ((let! _ := r in Ok v), s')
  end.
Fixpoint run (s : state) (l : list op) : list (res val) :=
  match l with [] => [] | o :: l => let '(r, s') := step s o in r :: run s' l end.
End Members.
