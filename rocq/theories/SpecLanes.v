(** Vocabulary for C120: a batched control loop, turn after turn. *)
From Verif Require Import Base Lin Mjx Typing Component Problem SpecComponent SpecProblem SpecQP Conf JaxComponents LocalIK SpecMotion JaxTree SpecJaxTree SpecBatch.
Open Scope nat_scope.

(** One lane on its own, jitted: each turn makes its calls, compiles problem 0, calls the
    jitted [solve] (which sees dictionaries sorted by key) at the current configuration and
    integrates the velocity found, which is also the next solver data.  The trace lists the
    configuration, the data that the solver saw and the velocity of each turn. *)
Inductive jitted_loop (L : lib) (So : qpsolver) (m : mjmodel) (dt : R) : list wop -> list (list wop) -> vec -> vec -> list (vec * jdata * vec) -> vec -> Prop :=
| jitted_end prog q s : jitted_loop L So m dt prog [] q s [] q
| jitted_turn prog os turns q s pd sol v q1 tr q2 :
    compiled_by (prog ++ os) 0 pd -> solve L So m (tvec q) s (under_jit pd) = Ok (sol, v) -> integrate m q v dt = Ok q1 ->
    jitted_loop L So m dt (prog ++ os ++ [WCompile 0]) turns q1 v tr q2 ->
    jitted_loop L So m dt prog (os :: turns) q s ((q, under_jit pd, v) :: tr) q2.

(** The batched loop: configurations, solver data and velocities have a leading axis of [N]
    lanes, here functions of the lane.  Each turn assigns stacks of [N] rows, compiles once,
    and calls the jitted, vmapped [solve] with the template [tm] made before the loop: lane
    [i] gets the sample [i] of the compiled data along that template.  Then it integrates
    every lane. *)
Inductive vmapped_loop (L : lib) (So : qpsolver) (m : mjmodel) (dt : R) (N : nat) (tm : py) :
  list wop -> list (list call) -> (nat -> vec) -> (nat -> vec) -> list ((nat -> vec) * (nat -> jdata) * (nat -> vec)) -> (nat -> vec) -> Prop :=
| vmapped_end prog q s : vmapped_loop L So m dt N tm prog [] q s [] q
| vmapped_turn prog ks turns q s pd pds v q1 tr q2 :
    compiled_by (prog ++ map as_step ks) 0 pd ->
    (forall i, i < N -> sample (slice i) tm (data_object (under_jit pd)) = data_object (pds i) /\
       (exists sol, solve L So m (tvec (q i)) (s i) (pds i) = Ok (sol, v i)) /\ integrate m (q i) (v i) dt = Ok (q1 i)) ->
    vmapped_loop L So m dt N tm (prog ++ map as_step ks ++ [WCompile 0]) turns q1 v tr q2 ->
    vmapped_loop L So m dt N tm prog (ks :: turns) q s ((q, pds, v) :: tr) q2.

(** In every turn the setters accept the stacks, the problem compiles, and the same places
    are assigned in every turn. *)
Fixpoint stacked (N : nat) (places : list (list string)) (prog : list wop) (turns : list (list call)) : Prop :=
  match turns with
  | [] => True
  | ks :: r => batch N 0 ks (state prog) /\ (forall p, In p (map place ks) <-> In p places) /\
      (exists pd, compiled_by (prog ++ map as_step ks) 0 pd) /\ stacked N places (prog ++ map as_step ks ++ [WCompile 0]) r
  end.

(** The turns of lane [i]: the same calls with row [i] of each stack. *)
Definition rows_of (i : nat) (turns : list (list call)) : list (list wop) := map (map (as_row i)) turns.
(** Lane [i] of a trace. *)
Definition lane (i : nat) (tr : list ((nat -> vec) * (nat -> jdata) * (nat -> vec))) : list (vec * jdata * vec) :=
  map (fun t => (fst (fst t) i, snd (fst t) i, snd t i)) tr.
