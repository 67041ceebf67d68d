(* Property theorems C10 (scoped settings) and the refuted claim C57. *)
From Verif Require Import Base BaseProofs ScopeModel ScopeProofs.
Local Open Scope list_scope.

(* C10: `with set_options(kw...): body` leaves the options as they were, for every
   kw and body, however the body ends. *)
Theorem C10_options_restored : forall kw body s,
  options (snd (exec (WithOptions kw body) s)) = options s.
Proof. exact with_options_restores_always. Qed.
Print Assumptions C10_options_restored.
Example C10_options_restored_ex :
  let p := WithOptions [("dask_chunk_size"%string, 7)]
             (Seq (New 0 [("paint_chunk_size"%string, 3)]) (Seq (Call None) (Raise RuntimeError))) in
  fst (exec p (start 5)) = Raised RuntimeError /\ trace (snd (exec p (start 5))) = [5%nat] /\
  options (snd (exec (New 0 [("paint_chunk_size"%string, 3)]) (start 5))) <> options (start 5).
Proof. repeat split. discriminate. Qed.

(* C10: an object made earlier restores the options in force when it was made,
   whatever ran between. *)
Theorem C10_object_restores_snapshot : forall x kw p body s s1 r1 r2 s2,
  exec (New x kw) s = (Normal, s1) -> exec p s1 = (r1, s2) -> objs s2 = objs s1 ->
  exec (With x body) s2 = r2 -> options (snd r2) = options s.
Proof. exact with_object. Qed.
Print Assumptions C10_object_restores_snapshot.
Example C10_object_restores_snapshot_ex : exists s1 s2,
  exec (New 1 [(cache_key, 7)]) (start 5) = (Normal, s1) /\
  exec (Seq (SetComm 3) (WithOptions [(cache_key, 9)] Skip)) s1 = (Normal, s2) /\ objs s2 = objs s1 /\
  dget (options s2) cache_key = Some 7.
Proof. do 2 eexists. repeat split. Qed.

(* C10: the options of the body: given names have the (last) given value, the others are unchanged *)
Theorem C10_options_in_scope : forall kw s s' old, options_init kw s = ((Normal, old), s') -> forall k,
  dget (options s') k =
  match find (fun kv => String.eqb k (fst kv)) (rev kw) with Some kv => Some (snd kv) | None => dget (options s) k end.
Proof. exact options_in_scope. Qed.
Print Assumptions C10_options_in_scope.
Example C10_options_in_scope_ex : exists s',
  options_init [(cache_key, 9)] (start 5) = ((Normal, options (start 5)), s') /\
  dget (options s') cache_key = Some 9 /\ dget (options s') "dask_chunk_size"%string = Some 100000.
Proof. eexists. repeat split. Qed.

(* C10: an unknown name is refused before anything is changed. *)
Theorem C10_unknown_option : forall kw s p,
  (exists kv, In kv kw /\ dget (options s) (fst kv) = None) ->
  exec (WithOptions kw p) s = (Raised KeyError, s) /\ forall x, exec (New x kw) s = (Raised KeyError, s).
Proof. exact unknown_option. Qed.
Print Assumptions C10_unknown_option.
Example C10_unknown_option_ex :
  exec (New 0 [(cache_key, 9); ("no_such_option"%string, 1)]) (start 5) = (Raised KeyError, start 5).
Proof. reflexivity. Qed.

(* C10: in every reachable state the cache has the size given by the options,
   and the set of option names is the initial one. *)
Theorem C10_cache_follows_options : forall p w r s, exec p (start w) = (r, s) ->
  dget (options s) cache_key = Some (cache s) /\ map fst (options s) = map fst (options (start w)).
Proof. exact exec_cache. Qed.
Print Assumptions C10_cache_follows_options.
Example C10_cache_follows_options_ex :
  cache (snd (exec (Seq (New 0 [(cache_key, 9)]) (Try (WithOptions [(cache_key, 4)] (Raise KeyError)) Skip)) (start 5))) = 9.
Proof. reflexivity. Qed.

(* C10: leaving `with CurrentMPIComm.enter(c): body` normally restores the
   communicators, provided no exception has crossed such a scope inside the body. *)
Theorem C10_comm_restored : forall c p s s',
  exec (WithComm c p) s = (Normal, s') -> leaks s' = leaks s -> stack s' = stack s.
Proof. exact enter_restores. Qed.
Print Assumptions C10_comm_restored.
Theorem C10_comm_restored_no_try : forall c p s s', has_try p = false ->
  exec (WithComm c p) s = (Normal, s') -> stack s' = stack s.
Proof. exact enter_restores_no_try. Qed.
Print Assumptions C10_comm_restored_no_try.
Example C10_comm_restored_ex :
  let r := exec (WithComm 1 (Seq (WithComm 2 (SetComm 4)) (SetComm 3))) (start 5) in
  fst r = Normal /\ leaks (snd r) = leaks (start 5).
Proof. repeat split. Qed.

(* C10: functions called without comm inside the scope get the scope's communicator,
   and the whole scope behaves as the same program passing comm explicitly. *)
Theorem C10_comm_scope_is_explicit_comm : forall c p s s',
  comm_free p = true -> exec (WithComm c p) s = (Normal, s') -> exec (explicit c p) s = (Normal, s').
Proof. exact enter_is_explicit. Qed.
Print Assumptions C10_comm_scope_is_explicit_comm.
Example C10_comm_scope_is_explicit_comm_ex :
  trace (snd (exec (WithComm 1 (Seq (Call None) (Seq (Call (Some 8%nat)) (Call None)))) (start 5))) = [1; 8; 1]%nat.
Proof. reflexivity. Qed.

(* C57: the communicator is not restored when the body raises, and the enclosing
   scope then restores the wrong one. *)
Theorem C57_comm_restored_on_exception_refuted :
  (exists c e s, stack (snd (exec (WithComm c (Raise e)) s)) <> stack s) /\
  (exists p s, fst (exec p s) = Normal /\ hd 0%nat (stack (snd (exec p s))) <> hd 0%nat (stack s)).
Proof. exact comm_not_restored. Qed.
Print Assumptions C57_comm_restored_on_exception_refuted.
(* exactly one communicator stays behind for each scope left by an exception *)
Theorem C57_leak_count_partial : forall p s r s', stack s <> [] -> exec p s = (r, s') ->
  (leaks s <= leaks s')%nat /\ (List.length (stack s') = List.length (stack s) + (leaks s' - leaks s))%nat /\
  (leaks s' = leaks s -> tl (stack s') = tl (stack s)).
Proof. exact leaks_stack. Qed.
Print Assumptions C57_leak_count_partial.
Example C57_leak_count_partial_ex :
  let p := Try (WithComm 1 (WithComm 2 (Raise ValueError))) Skip in
  stack (snd (exec p (start 5))) = [2; 1; 5]%nat /\ leaks (snd (exec p (start 5))) = 2%nat.
Proof. split; reflexivity. Qed.
