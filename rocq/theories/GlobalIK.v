(** mjinx/solvers/_global_ik.py *)
From Verif Require Import Base Lin Mjx Typing Component Problem Rot Conf FrameJac Collide JaxComponents.
Open Scope R_scope.

(** [jnp.clip(x, 1e-9, 1)] *)
Definition clip (x : R) : R := Rmin (Rmax x (/ 1000000000)) 1.
(** _global_ik.py:106-127 *)
Definition log_barrier (x gain : vec) : res R := do p <- bc2 Rmult gain (map ln x); Ok (vsum p).

(** _global_ik.py:141-159, one component.  [(gain * err) @ err]: shapes must match. *)
Definition add_loss (L : lib) (d : mjdata) (loss : R) (j : jaxc) : res R :=
  match j_ext j with
  | JTask _ _ _ =>
      do e <- call L j d; do ge <- bc2 Rmult (j_gain j) e;
      if Nat.eqb (List.length ge) (List.length e) then Ok (loss + dot ge e) else Err TypeError
  | JBarrier _ _ => do h <- call L j d; do b <- log_barrier (map clip h) (j_gain j); Ok (loss - b)
  | JConstraint _ _ _ _ => Err NotImplementedError
  end.
Fixpoint loss_of (L : lib) (d : mjdata) (loss : R) (js : list (string * jaxc)) : res R :=
  match js with [] => Ok loss | (_, j) :: r => do l <- add_loss L d loss j; loss_of L d l r end.
(** _global_ik.py:129-159 *)
Definition loss_fn (L : lib) (q : list R) (pd : jdata) : res R :=
  loss_of L (update L (jd_model pd) q) 0 (jd_comps pd).

(** The optimizer (optax): state type, init, update. *)
Record optimizer := mkOpt { o_state : Type; o_init : list R -> o_state; o_update : list R -> o_state -> list R * o_state }.
(** [jax.grad(loss_fn)]. *)
Definition gradient := (list R -> res R) -> list R -> res (list R).

(** _global_ik.py:176-197; [sm], [dt]: the solver's model and time step. *)
Definition gsolve (L : lib) (grad : gradient) (O : optimizer) (sm : mjmodel) (dt : R) (q : tensor) (st : o_state O) (pd : jdata)
  : res (list R * list R * o_state O) :=
  match t_shape q with
  | [k] =>
      if Nat.eqb k (m_nq sm) then
        do g <- grad (fun x => loss_fn L x pd) (t_data q);
        let '(dq, st') := o_update O g st in
        Ok (vadd (t_data q) dq, map (fun x => x / dt) dq, st')
      else Err ValueError
  | _ => Err ValueError
  end.
(** _global_ik.py:161-174 *)
Definition gsolve_from_data (L : lib) (grad : gradient) (O : optimizer) (sm : mjmodel) (dt : R) (st : o_state O) (pd : jdata) (d : mjdata) :=
  gsolve L grad O sm dt (tvec (d_qpos d)) st pd.
(** _global_ik.py:199-209 *)
Definition ginit (O : optimizer) (sm : mjmodel) (q : tensor) : res (o_state O) :=
  match t_shape q with
  | [k] => if Nat.eqb k (m_nq sm) then Ok (o_init O (t_data q)) else Err ValueError
  | _ => Err ValueError
  end.
