(** mjinx/solvers/_base.py and mjinx/solvers/_local_ik.py: assembly of the QP
    from the compiled problem, and the solve/init entry points. *)
From Verif Require Import Base Lin Mjx Typing Component Problem Rot Conf FrameJac Collide JaxComponents.
Open Scope R_scope.

(** [jnp] matrix product operands must agree; mismatches raise TypeError. *)
Definition check (b : bool) : res unit := if b then Ok tt else Err TypeError.
(** Sum of two vectors / matrices of the same shape.  JAX would also broadcast
    axes of length one; such shapes never come from components bound to the
    problem's model and are treated as errors. *)
Definition add_vec (a b : vec) : res vec := do _ <- check (Nat.eqb (List.length a) (List.length b)); Ok (vadd a b).
Definition add_mat (n : nat) (A B : mat) : res mat := do _ <- check (is_matb n n A && is_matb n n B); Ok (madd A B).

(** _local_ik.py:240-241, 274-275, 286-288: [-vector_gain * vmap(gain_fn)(value)] *)
Definition minus_gain_error (j : jaxc) (e : vec) : res vec := bc2 Rmult (vneg (j_gain j)) (map (j_gain_fn j) e).

(** [(W @ J).T @ (W @ J)], [W @ e] and [-(W @ e).T @ (W @ J)] with shape checks. *)
Definition weighted (n : nat) (W J : mat) (e : vec) : res (mat * vec * vec) :=
  let k := List.length J in
  do _ <- check (is_matb k n J && Nat.eqb (List.length e) k && is_matb (List.length W) k W);
  let WJ := mm n W J in let We := mv W e in
  Ok (mm n (tr n WJ) WJ, We, vm n (vneg We) WJ).

(** _local_ik.py:232-249 *)
Definition process_task (L : lib) (nv : nat) (d : mjdata) (j : jaxc) (W : mat) (lm : R) : res (mat * vec) :=
  do J <- jacobian L j d; do e <- call L j d; do ge <- minus_gain_error j e;
  do r <- weighted nv W J ge;
  let '(H, We, c) := r in
  Ok (madd H (mscale (lm * dot We We) (eye nv)), c).

(** _local_ik.py:251-271.  A zero Jacobian makes the division produce NaN/inf
    entries: [NonFinite]. *)
Definition process_barrier (L : lib) (nv : nat) (d : mjdata) (j : jaxc) (sdg : R) : res (mat * vec * mat * vec) :=
  do J <- jacobian L j d;
  if Req_EM_T (frob2 J) 0 then Err NonFinite else
  let g := sdg / frob2 J in
  do e <- call L j d;
  do h <- bc2 Rmult (j_gain j) (map (j_gain_fn j) e);
  Ok (mscale g (eye nv), vscale (- g) (safe_displacement j), mneg J, h).

(** _local_ik.py:273-282 *)
Definition process_soft (L : lib) (nv : nat) (d : mjdata) (j : jaxc) (W : mat) : res (mat * vec) :=
  do J <- jacobian L j d; do e <- call L j d; do ge <- minus_gain_error j e;
  do r <- weighted nv W J ge;
  let '(H, _, c) := r in Ok (H, c).

(** _local_ik.py:284-290 *)
Definition process_hard (L : lib) (d : mjdata) (j : jaxc) : res (mat * vec) :=
  do J <- jacobian L j d; do e <- call L j d; do b <- minus_gain_error j e; Ok (J, b).

(** Accumulators of the assembly loop: P, c and the lists of blocks. *)
Record acc := mkAcc { ac_H : mat; ac_c : vec; ac_A : list mat; ac_b : list vec; ac_G : list mat; ac_h : list vec }.
Definition add_obj (n : nat) (a : acc) (H : mat) (c : vec) : res acc :=
  do H' <- add_mat n (ac_H a) H; do c' <- add_vec (ac_c a) c;
  Ok (mkAcc H' c' (ac_A a) (ac_b a) (ac_G a) (ac_h a)).

(** _local_ik.py:308-329, one iteration.  [n]: nv of the solver's model. *)
Definition add_component_qp (L : lib) (n nv : nat) (d : mjdata) (a : acc) (j : jaxc) : res acc :=
  match j_ext j with
  | JTask W lm _ => do r <- process_task L nv d j W lm; add_obj n a (fst r) (snd r)
  | JBarrier sdg _ =>
      do r <- process_barrier L nv d j sdg;
      let '(H, c, G, h) := r in
      do a' <- add_obj n a H c;
      Ok (mkAcc (ac_H a') (ac_c a') (ac_A a') (ac_b a') (ac_G a' ++ [G]) (ac_h a' ++ [h]))
  | JConstraint _ hard W _ =>
      if hard then
        do r <- process_hard L d j;
        Ok (mkAcc (ac_H a) (ac_c a) (ac_A a ++ [fst r]) (ac_b a ++ [snd r]) (ac_G a) (ac_h a))
      else do r <- process_soft L nv d j W; add_obj n a (fst r) (snd r)
  end.
Fixpoint add_components (L : lib) (n nv : nat) (d : mjdata) (js : list (string * jaxc)) (a : acc) : res acc :=
  match js with
  | [] => Ok a
  | (_, j) :: r => do a' <- add_component_qp L n nv d a j; add_components L n nv d r a'
  end.

(** The quadratic programme: minimise 1/2 v'Pv + c'v subject to A v = b, G v <= h. *)
Record qp := mkQP { qp_P : mat; qp_c : vec; qp_eq : option (mat * vec); qp_G : mat; qp_h : vec }.

(** [jnp.vstack]: all blocks need the same number of columns. *)
Definition vstack (n : nat) (Ms : list mat) : res mat :=
  do _ <- check (forallb (fun M => is_matb (List.length M) n M) Ms); Ok (List.concat Ms).

(** _local_ik.py:292-338; [sm] is the solver's own model. *)
Definition assemble (L : lib) (sm : mjmodel) (pd : jdata) (d : mjdata) : res qp :=
  let n := m_nv sm in
  let nv := m_nv (jd_model pd) in
  let a0 := mkAcc (mzero n n) (vzero n) [] []
              [eye nv; mneg (eye nv)] [vneg (jd_vmin pd); jd_vmax pd] in
  do a <- add_components L n nv d (jd_comps pd) a0;
  do eq <- match ac_A a with
           | [] => Ok None
           | _ => do A <- vstack nv (ac_A a); Ok (Some (A, List.concat (ac_b a)))
           end;
  do G <- vstack nv (ac_G a);
  Ok (mkQP (ac_H a) (ac_c a) eq G (List.concat (ac_h a))).

(** The OSQP solver (jaxopt): any function returning primal and dual values. *)
Record qpsol := mkSol { sol_primal : vec; sol_dual_eq : vec; sol_dual_ineq : vec }.
Definition qpsolver := qp -> qpsol.

(** _local_ik.py:340-372: the previous solver data are not used. *)
Definition solve_from_data (L : lib) (S : qpsolver) (sm : mjmodel) (v_prev : vec) (pd : jdata) (d : mjdata) : res (qpsol * vec) :=
  do Q <- assemble L sm pd d; let s := S Q in Ok (s, sol_primal s).
(** solvers/_base.py:89-106 *)
Definition solve (L : lib) (S : qpsolver) (sm : mjmodel) (q : tensor) (v_prev : vec) (pd : jdata) : res (qpsol * vec) :=
  match t_shape q with
  | [k] => if Nat.eqb k (m_nq sm) then solve_from_data L S sm v_prev pd (update L sm (t_data q)) else Err ValueError
  | _ => Err ValueError
  end.
(** _local_ik.py:374-386 *)
Definition init (sm : mjmodel) (v_init : option tensor) : res vec :=
  match v_init with
  | None => Ok (vzero (m_nv sm))
  | Some t => match t_shape t with
              | [k] => if Nat.eqb k (m_nv sm) then Ok (t_data t) else Err ValueError
              | _ => Err ValueError
              end
  end.
