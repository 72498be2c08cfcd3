(** Vocabulary for C95: the loop of examples/global_ik.py. *)
From Verif Require Import Base Lin Mjx Typing Component Problem SpecComponent SpecJoint SpecHistory SpecProblem SpecMotion SpecFit SpecTrace SpecSetup SpecCollision SpecTree SpecShape SpecContact SpecSelf SpecValue Conf JaxComponents GlobalIK SpecQP SpecGlobal.
Open Scope R_scope.

(** What [jax.grad] does: it traces the function, so that it fails as the function does,
    and has as many entries as the argument. *)
Definition traces (grad : gradient) : Prop :=
  (forall f x, (exists y, f x = Ok y) -> exists g, grad f x = Ok g /\ List.length g = List.length x) /\
  (forall f x e, f x = Err e -> grad f x = Err e).

(** Each turn makes the calls [os], compiles problem 0, makes one optimizer step from the
    current configuration and goes on from [q_opt]. *)
Inductive global_loop (L : lib) (grad : gradient) (O : optimizer) (m : mjmodel) (dt : R) : list wop -> list (list wop) -> vec -> o_state O -> list (vec * jdata * vec) -> vec -> Prop :=
| gloop_end prog q st : global_loop L grad O m dt prog [] q st [] q
| gloop_turn prog os turns q st pd v q1 st1 tr q2 :
    compiled_by (prog ++ os) 0 pd -> gsolve L grad O m dt (tvec q) st pd = Ok (q1, v, st1) ->
    global_loop L grad O m dt (prog ++ os ++ [WCompile 0]) turns q1 st1 tr q2 ->
    global_loop L grad O m dt prog (os :: turns) q st ((q, pd, v) :: tr) q2.

Definition constraint_component (c : comp) : Prop := match a_ext (c_at c) with XConstraint _ _ _ _ => True | _ => False end.
(** [n] optimizer steps on the same compiled problem. *)
Inductive gsteps (L : lib) (grad : gradient) (O : optimizer) (m : mjmodel) (dt : R) (pd : jdata) : nat -> vec -> o_state O -> vec -> Prop :=
| gsteps_0 q st : gsteps L grad O m dt pd 0 q st q
| gsteps_S n q st q1 v st1 q2 : gsolve L grad O m dt (tvec q) st pd = Ok (q1, v, st1) -> gsteps L grad O m dt pd n q1 st1 q2 -> gsteps L grad O m dt pd (S n) q st q2.

(** Component [c] can be evaluated at configuration [q] (nothing to ask of the library's
    tasks, position and joint barriers): a function of the user returns as many numbers as
    announced; a self-collision barrier has at least one pair to check, a collision function for
    every pair and no more distances to report than pairs; the simulator reports the rows
    of the equalities. *)
Definition evaluates (L : lib) (m : mjmodel) (q : vec) (c : comp) : Prop :=
  match a_ext (c_at c) with
  | XTask _ _ (TCustom f) | XBarrier _ (BCustom f) | XConstraint _ _ _ (CCustom f) => forall d, wf_data m d -> a_dim (c_at c) = Z.of_nat (List.length (f d))
  | XBarrier _ (BSelf s) => forall ids ex ps, lists_bodies m (sc_bodies s) ids -> Forall2 (refers2 m) (sc_excl_raw s) ex -> checks_exactly m ids ex ps ->
      ps <> [] /\ full_table (l_coll L) m ps /\ (sc_n s <= Z.of_nat (List.length ps))%Z
  | XConstraint _ _ _ CModelEq => let d := update L m q in List.length (flagged (d_efc_pos d) (d_efc_is_equality d)) = eq_total m
  | _ => True
  end.
