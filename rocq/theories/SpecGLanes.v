(** Vocabulary for C122: batched loops around the global solver. *)
From Verif Require Import Base Lin Mjx Typing Component Problem SpecComponent SpecProblem SpecQP JaxComponents GlobalIK SpecMotion JaxTree SpecJaxTree SpecBatch.
Open Scope nat_scope.

(** [k] calls of [solve] in a row, all of them at the same configuration [q]; only the
    solver data are handed on.  The result is that of the last call.
    global_ik_vmapped_output.py:187-188 (five calls), global_ik_vmapped_input.py:163-164
    (three), global_ik.py:148-149 (one). *)
Inductive attempts (L : lib) (grad : gradient) (O : optimizer) (m : mjmodel) (dt : R) (pd : jdata) : nat -> vec -> o_state O -> vec -> vec -> o_state O -> Prop :=
| attempts_last q st q1 v st1 : gsolve L grad O m dt (tvec q) st pd = Ok (q1, v, st1) -> attempts L grad O m dt pd 1 q st q1 v st1
| attempts_more k q st q0 v0 st0 q1 v st1 : gsolve L grad O m dt (tvec q) st pd = Ok (q0, v0, st0) -> attempts L grad O m dt pd k q st0 q1 v st1 ->
    attempts L grad O m dt pd (S k) q st q1 v st1.

(** The same for [N] lanes: each call is made for all lanes at once. *)
Inductive vattempts (L : lib) (grad : gradient) (O : optimizer) (m : mjmodel) (dt : R) (N : nat) (pds : nat -> jdata) :
  nat -> (nat -> vec) -> (nat -> o_state O) -> (nat -> vec) -> (nat -> vec) -> (nat -> o_state O) -> Prop :=
| vattempts_last q st q1 v st1 : (forall i, i < N -> gsolve L grad O m dt (tvec (q i)) (st i) (pds i) = Ok (q1 i, v i, st1 i)) -> vattempts L grad O m dt N pds 1 q st q1 v st1
| vattempts_more k q st q0 v0 st0 q1 v st1 : (forall i, i < N -> gsolve L grad O m dt (tvec (q i)) (st i) (pds i) = Ok (q0 i, v0 i, st0 i)) ->
    vattempts L grad O m dt N pds k q st0 q1 v st1 -> vattempts L grad O m dt N pds (S k) q st q1 v st1.

(** One lane on its own, jitted: each turn makes its calls, compiles problem 0, calls the
    jitted [solve] [k] times at the current configuration and goes on from the last [q_opt]. *)
Inductive jitted_gloop (L : lib) (grad : gradient) (O : optimizer) (m : mjmodel) (dt : R) (k : nat) : list wop -> list (list wop) -> vec -> o_state O -> list (vec * jdata * vec) -> vec -> Prop :=
| jitted_gend prog q st : jitted_gloop L grad O m dt k prog [] q st [] q
| jitted_gturn prog os turns q st pd v q1 st1 tr q2 :
    compiled_by (prog ++ os) 0 pd -> attempts L grad O m dt (under_jit pd) k q st q1 v st1 ->
    jitted_gloop L grad O m dt k (prog ++ os ++ [WCompile 0]) turns q1 st1 tr q2 ->
    jitted_gloop L grad O m dt k prog (os :: turns) q st ((q, under_jit pd, v) :: tr) q2.

(** The batched loop: lane [i] gets the sample [i] of the compiled data along the template
    [tm]; with [None] for a template ([in_axes=None]) every lane gets all of it. *)
Inductive vmapped_gloop (L : lib) (grad : gradient) (O : optimizer) (m : mjmodel) (dt : R) (k N : nat) (tm : py) :
  list wop -> list (list call) -> (nat -> vec) -> (nat -> o_state O) -> list ((nat -> vec) * (nat -> jdata) * (nat -> vec)) -> (nat -> vec) -> Prop :=
| vmapped_gend prog q st : vmapped_gloop L grad O m dt k N tm prog [] q st [] q
| vmapped_gturn prog ks turns q st pd pds v q1 st1 tr q2 :
    compiled_by (prog ++ map as_step ks) 0 pd ->
    (forall i, i < N -> sample (slice i) tm (data_object (under_jit pd)) = data_object (pds i)) ->
    vattempts L grad O m dt N pds k q st q1 v st1 ->
    vmapped_gloop L grad O m dt k N tm (prog ++ map as_step ks ++ [WCompile 0]) turns q1 st1 tr q2 ->
    vmapped_gloop L grad O m dt k N tm prog (ks :: turns) q st ((q, pds, v) :: tr) q2.

(** What an optimizer answers last when it is given the same gradient [k] times. *)
Fixpoint fed (O : optimizer) (g : vec) (k : nat) (st : o_state O) : vec * o_state O :=
  match k with
  | 0 | 1 => o_update O g st
  | S k' => fed O g k' (snd (o_update O g st))
  end.
(** An optimizer whose step depends on the gradient only (plain gradient descent). *)
Definition forgetful (O : optimizer) : Prop := forall g st st', fst (o_update O g st) = fst (o_update O g st').
