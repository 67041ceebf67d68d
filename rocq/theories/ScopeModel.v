(* Model of the scoped global settings of nbodykit/__init__.py: set_options and
   CurrentMPIComm. *)
From Verif Require Import Base.
From Coq Require Export String.
Close Scope string_scope.
Local Open Scope list_scope.

(* Python dict with string keys, insertion ordered *)
Fixpoint dget (d : list (string * Z)) (k : string) : option Z :=
  match d with
  | [] => None
  | (k', v) :: d => if String.eqb k k' then Some v else dget d k
  end.
Fixpoint dset (d : list (string * Z)) (k : string) (v : Z) : list (string * Z) :=
  match d with
  | [] => [(k, v)]
  | (k', v') :: d => if String.eqb k k' then (k', v) :: d else (k', v') :: dset d k v
  end.
Definition dupdate (d kw : list (string * Z)) : list (string * Z) :=
  fold_left (fun d kv => dset d (fst kv) (snd kv)) kw d.
Definition dmem (d : list (string * Z)) (k : string) : bool :=
  match dget d k with Some _ => true | None => false end.

(* process-wide state *)
Record gstate := {
  options : list (string * Z);     (* _global_options, lines 22-25 *)
  cache : Z;                       (* available_bytes of the dask cache, 212 *)
  stack : list nat;                (* CurrentMPIComm._stack, 111; current one first *)
  objs : list (nat * list (string * Z));  (* set_options objects by variable: their .old *)
  leaks : nat;                     (* ghost: number of enter() scopes left by an exception *)
  trace : list nat                 (* communicators received by the functions called *)
}.

Definition cache_key : string := "global_cache_size".

(* the state after import, 22-25, 111, 212 *)
Definition start (world : nat) : gstate :=
  {| options := [(cache_key, 100000000); ("dask_chunk_size"%string, 100000);
                 ("paint_chunk_size"%string, 4194304)];
     cache := 100000000; stack := [world]; objs := []; leaks := 0; trace := [] |}.

Inductive outcome := Normal | Raised (e : exn).

Inductive prog :=
| Skip
| Raise (e : exn)
| Seq (p q : prog)
| Try (p handler : prog)                        (* try: p; except: handler *)
| New (x : nat) (kw : list (string * Z))        (* x = set_options(kw...) *)
| With (x : nat) (body : prog)                  (* with x: body *)
| WithOptions (kw : list (string * Z)) (body : prog)  (* with set_options(kw...): body *)
| WithComm (c : nat) (body : prog)              (* with CurrentMPIComm.enter(c): body *)
| SetComm (c : nat)                             (* CurrentMPIComm.set(c) *)
| Call (comm : option nat).                     (* a function decorated by enable, called with comm=... *)

Definition with_options (s : gstate) o c := {| options := o; cache := c; stack := stack s; objs := objs s; leaks := leaks s; trace := trace s |}.
Definition with_stack (s : gstate) k := {| options := options s; cache := cache s; stack := k; objs := objs s; leaks := leaks s; trace := trace s |}.
Definition with_objs (s : gstate) b := {| options := options s; cache := cache s; stack := stack s; objs := b; leaks := leaks s; trace := trace s |}.

Definition or0 (o : option Z) : Z := match o with Some v => v | None => 0 end.

(* set_options.__init__, 230-243: snapshot, check all keys, update, resize.
   Returns the snapshot. *)
Definition options_init (kw : list (string * Z)) (s : gstate) : (outcome * list (string * Z)) * gstate :=
  let old := options s in
  if forallb (fun kv => dmem old (fst kv)) kw then
    let o := dupdate old kw in
    let c := if dmem kw cache_key then or0 (dget o cache_key) else cache s in
    ((Normal, old), with_options s o c)
  else ((Raised KeyError, old), s).

(* set_options.__exit__, 248-256 (returns None: the exception goes on).
   The KeyError of a missing global_cache_size cannot happen, see scope_cache_ok. *)
Definition options_exit (old : list (string * Z)) (s : gstate) : gstate :=
  with_options s old (or0 (dget old cache_key)).

Definition lookup (b : list (nat * list (string * Z))) (x : nat) : option (list (string * Z)) :=
  match find (fun p => Nat.eqb (fst p) x) b with Some p => Some (snd p) | None => None end.

Fixpoint exec (p : prog) (s : gstate) : outcome * gstate :=
  match p with
  | Skip => (Normal, s)
  | Raise e => (Raised e, s)
  | Seq p q => match exec p s with
               | (Normal, s) => exec q s
               | r => r
               end
  | Try p h => match exec p s with
               | (Raised _, s) => exec h s
               | r => r
               end
  | New x kw => match options_init kw s with
                | ((Normal, old), s) => (Normal, with_objs s ((x, old) :: objs s))
                | ((r, _), s) => (r, s)
                end
  | With x body => match lookup (objs s) x with
                   | None => (Raised NameError, s)
                   | Some old => let '(r, s) := exec body s in (r, options_exit old s)
                   end
  | WithOptions kw body =>
      match options_init kw s with
      | ((Normal, old), s) => let '(r, s) := exec body s in (r, options_exit old s)
      | ((r, _), s) => (r, s)
      end
  (* enter, 129-154: push; yield; pop.  There is no try/finally, so an exception
     thrown into the generator at the yield skips the pop. *)
  | WithComm c body =>
      match exec body (with_stack s (c :: stack s)) with
      | (Normal, s) => (Normal, with_stack s (tl (stack s)))
      | (Raised e, s) => (Raised e, {| options := options s; cache := cache s; stack := stack s; objs := objs s;
                                       leaks := S (leaks s); trace := trace s |})
      end
  (* set, 182-191 *)
  | SetComm c => (Normal, with_stack s (c :: tl (stack s)))
  (* enable, 114-127 *)
  | Call comm =>
      let c := match comm with Some c => c | None => hd 0%nat (stack s) end in
      (Normal, {| options := options s; cache := cache s; stack := stack s; objs := objs s; leaks := leaks s;
                  trace := trace s ++ [c] |})
  end.
