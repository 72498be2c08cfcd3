(** mjinx/configuration/_lie.py and the configuration-space parts of
    mjinx/configuration/_model.py. *)
From Verif Require Import Base Lin Mjx Rot.
Open Scope R_scope.

(** Python slice [x[a : a + k]] of a 1-d array (clipped at the end). *)
Definition slice {A} (a k : nat) (l : list A) : list A := firstn k (skipn a l).
(** The [k] entries at [a] read as quaternion / vector; [Err] when the array is too short. *)
Definition quat_at (a : nat) (q : list R) : res quat := q_of (slice a 4 q).
Definition vec_at (a : nat) (q : list R) : res v3 := v3_of (slice a 3 q).

(** ** _model.py:188-216, which calls mjx._src.forward._integrate_pos: joints in
    order, at running addresses into qpos and qvel.  Neither mjinx nor mjx
    compares the lengths with the model: slices are clipped at the end of the
    array and single indices are clamped into it, so a short array is read again
    at its last entry (tests/unit_tests/configuration/test_configuration.py:117-121
    integrates a velocity of length 1 on a robot with five degrees of freedom). *)
(** mjx._src.math.quat_mul reads its arguments entry by entry. *)
Definition jx_quat (l : list R) : res quat :=
  do w <- jx_idx l 0; do x <- jx_idx l 1; do y <- jx_idx l 2; do z <- jx_idx l 3; Ok (mkQ w x y z).
(** mjx._src.math.normalize_with_norm and axis_angle_to_quat:
    [jnp.insert(axis * s, 0, c)]. *)
Definition turn_entries (v : list R) (dt : R) : list R :=
  let n := sqrt (fold_right Rplus 0 (map (fun x => x * x) v)) in
  let a := dt * n in
  cos (a * (1 / 2)) :: map (fun x => safe_div x n * sin (a * (1 / 2))) v.
(** mjx._src.math.quat_integrate *)
Definition jx_quat_integrate (q v : list R) (dt : R) : res (list R) :=
  do a <- jx_quat q; do b <- jx_quat (turn_entries v dt); Ok (q_list (q_normalize (q_mul a b))).
Definition integrate_at (t : jnttype) (qi vi : nat) (q v : list R) (dt : R) : res (list R) :=
  match t with
  | JFree => do p <- bc2 Rplus (slice qi 3 q) (map (Rmult dt) (slice vi 3 v));
             do r <- jx_quat_integrate (slice (qi + 3) 4 q) (slice (vi + 3) 3 v) dt;
             Ok (p ++ r)
  | JBall => jx_quat_integrate (slice qi 4 q) (slice vi 3 v) dt
  | _ => do x <- jx_idx q (Z.of_nat qi); do w <- jx_idx v (Z.of_nat vi); Ok [x + dt * w]
  end.
Fixpoint integrate_all (ts : list jnttype) (qi vi : nat) (q v : list R) (dt : R) : res (list R) :=
  match ts with
  | [] => Ok []
  | t :: r => do x <- integrate_at t qi vi q v dt;
              do rest <- integrate_all r (qi + jnt_nq t) (vi + jnt_nv t) q v dt;
              Ok (x ++ rest)
  end.
Definition integrate (m : mjmodel) (q v : list R) (dt : R) : res (list R) :=
  integrate_all (m_jnt_type m) 0 0 q v dt.

(** ** _lie.py:8-27.  [jnp.concatenate([])] raises ValueError. *)
Definition joint_zero (t : jnttype) : list R :=
  match t with JFree => [0; 0; 0; 1; 0; 0; 0] | JBall => [1; 0; 0; 0] | _ => [0] end.
Definition concat_arrays (ls : list (list R)) : res (list R) :=
  match ls with [] => Err ValueError | _ => Ok (List.concat ls) end.
Definition get_joint_zero (m : mjmodel) : res (list R) := concat_arrays (map joint_zero (m_jnt_type m)).

(** ** _lie.py:30-90.  [rminus(a, b)] of jaxlie.manifold is log(a^-1 b). *)
Definition so3_rminus (eps : R) (a b : quat) : list R := v3_list (so3_log eps (q_mul (q_conj a) b)).
Definition se3_rminus (eps : R) (a b : se3) : list R := se3_log eps (se3_mul (se3_inv a) b).
Fixpoint difference_from (eps : R) (ts : list jnttype) (idx : nat) (q1 q2 : list R) : res (list (list R)) :=
  match ts with
  | [] => Ok []
  | JFree :: r =>
      do p1 <- vec_at idx q1; do r1 <- quat_at (idx + 3) q1;
      do p2 <- vec_at idx q2; do r2 <- quat_at (idx + 3) q2;
      do rest <- difference_from eps r (idx + 7) q1 q2;
      Ok (se3_rminus eps (mkS r1 p1) (mkS r2 p2) :: rest)
  | JBall :: r =>
      do r1 <- quat_at idx q1; do r2 <- quat_at idx q2;
      do rest <- difference_from eps r (idx + 4) q1 q2;
      Ok (so3_rminus eps r1 r2 :: rest)
  | _ :: r =>
      do d <- bc2 Rminus (slice idx 1 q1) (slice idx 1 q2);
      do rest <- difference_from eps r (idx + 1) q1 q2;
      Ok (d :: rest)
  end.
Definition joint_difference (eps : R) (m : mjmodel) (q1 q2 : list R) : res (list R) :=
  do ds <- difference_from eps (m_jnt_type m) 0 q1 q2; concat_arrays ds.

(** ** _lie.py:93-122 *)
Definition skew_symmetric (v : v3) : mat :=
  [[0; - vz v; vy v]; [vz v; 0; - vx v]; [- vy v; vx v; 0]].
(** ** _lie.py:125-156: [vstack([-v.T, eye(3) * w + skew_symmetric(v)])] *)
Definition attitude_jacobian (q : quat) : mat :=
  vneg (v3_list (q_im q)) :: madd (mscale (qw q) (eye 3)) (skew_symmetric (q_im q)).

(** ** _lie.py:159-212.  [jac.at[r0:.., c0:..].set(B)]. *)
Definition set_row (c0 : nat) (b row : list R) : list R :=
  map (fun p => if (c0 <=? fst p)%nat && (fst p <? c0 + List.length b)%nat then nth (fst p - c0) b 0 else snd p)
      (combine (seq 0 (List.length row)) row).
Definition set_block (r0 c0 : nat) (B M : mat) : mat :=
  map (fun p => if (r0 <=? fst p)%nat && (fst p <? r0 + List.length B)%nat then set_row c0 (nth (fst p - r0) B []) (snd p) else snd p)
      (combine (seq 0 (List.length M)) M).
Fixpoint jac_from (jts : list (jnttype * nat)) (row col : nat) (q : list R) (J : mat) : res mat :=
  match jts with
  | [] => Ok J
  | (JFree, adr) :: r =>
      do e <- quat_at (adr + 3) q;
      jac_from r (row + 7) (col + 6) q
        (set_block (row + 3) (col + 3) (attitude_jacobian e) (set_block row col (eye 3) J))
  | (JBall, adr) :: r =>
      do e <- quat_at adr q;
      jac_from r (row + 4) (col + 3) q (set_block row col (attitude_jacobian e) J)
  | (_, _) :: r => jac_from r (row + 1) (col + 1) q (set_block row col [[1]] J)
  end.
Definition jac_dq2v (m : mjmodel) (q : list R) : res mat :=
  jac_from (combine (m_jnt_type m) (m_jnt_qposadr m)) 0 0 q (mzero (m_nq m) (m_nv m)).

(** ** _model.py:160-185 *)
Definition get_transform_frame_to_world (d : mjdata) (frame_id : Z) : res se3 :=
  do ql <- jx_idx (d_xquat d) frame_id; do pl <- jx_idx (d_xpos d) frame_id;
  do q <- q_of ql; do p <- v3_of pl; Ok (mkS q p).
Definition get_transform (d : mjdata) (source_id dest_id : Z) : res se3 :=
  do td <- get_transform_frame_to_world d dest_id;
  do ts <- get_transform_frame_to_world d source_id;
  Ok (se3_mul td ts).

(** ** _model.py:219-233.  The limit argument is a Python float or something
    else (an int or an array). *)
Inductive limit_arg := LFloat (x : R) | LInt (x : Z) | LArr (t : tensor).
Definition get_configuration_limit (m : mjmodel) (l : limit_arg) : res (mat * list R) :=
  do la <- match l with
           | LFloat x => Ok (vconst (m_nv m) x)
           | LInt _ => Err ValueError              (* concatenate of 0-d arrays *)
           | LArr t => match ndim t with
                       | 0%nat => Err ValueError   (* concatenate of 0-d arrays *)
                       | 1%nat => Ok (t_data t)
                       | _ => Err TypeError        (* higher ranks: not modelled *)
                       end
           end;
  Ok (mscale (-1) (eye (m_nv m)) ++ eye (m_nv m), la ++ la).
