(** Rotations and rigid motions as computed by the external libraries mjinx
    calls: jaxlie (SO3/SE3 stored as unit quaternions, scalar first, plus a
    translation) and mujoco.mjx._src.math (quat_integrate).  This file models
    library behaviour, not mjinx code: it belongs to the trusted base. *)
From Verif Require Import Base Lin.
Open Scope R_scope.

Record v3 := mkV { vx : R; vy : R; vz : R }.
Record quat := mkQ { qw : R; qx : R; qy : R; qz : R }.

Definition v3_zero : v3 := mkV 0 0 0.
Definition v3_add (a b : v3) := mkV (vx a + vx b) (vy a + vy b) (vz a + vz b).
Definition v3_sub (a b : v3) := mkV (vx a - vx b) (vy a - vy b) (vz a - vz b).
Definition v3_neg (a : v3) := mkV (- vx a) (- vy a) (- vz a).
Definition v3_scale (k : R) (a : v3) := mkV (k * vx a) (k * vy a) (k * vz a).
Definition v3_dot (a b : v3) := vx a * vx b + vy a * vy b + vz a * vz b.
Definition cross (a b : v3) :=                                     (* jnp.cross *)
  mkV (vy a * vz b - vz a * vy b) (vz a * vx b - vx a * vz b) (vx a * vy b - vy a * vx b).
Definition v3_norm2 (a : v3) := v3_dot a a.

Definition v3_list (a : v3) : list R := [vx a; vy a; vz a].
(** A row of three numbers; anything else does not have the shape the code assumes. *)
Definition v3_of (l : list R) : res v3 := match l with [x; y; z] => Ok (mkV x y z) | _ => Err TypeError end.

(** 3 x 3 matrices, row-major. *)
Record m3 := mkM3 { m00 : R; m01 : R; m02 : R; m10 : R; m11 : R; m12 : R; m20 : R; m21 : R; m22 : R }.
Definition m3_of (l : list R) : res m3 :=                          (* reshape(3, 3) *)
  match l with [a; b; c; d; e; f; g; h; i] => Ok (mkM3 a b c d e f g h i) | _ => Err TypeError end.
Definition m3_list (M : m3) : list R :=
  [m00 M; m01 M; m02 M; m10 M; m11 M; m12 M; m20 M; m21 M; m22 M].
Definition m3_app (M : m3) (v : v3) : v3 :=
  mkV (m00 M * vx v + m01 M * vy v + m02 M * vz v)
      (m10 M * vx v + m11 M * vy v + m12 M * vz v)
      (m20 M * vx v + m21 M * vy v + m22 M * vz v).
Definition m3_tr (M : m3) : m3 :=
  mkM3 (m00 M) (m10 M) (m20 M) (m01 M) (m11 M) (m21 M) (m02 M) (m12 M) (m22 M).
Definition m3_mul (A B : m3) : m3 :=
  mkM3 (m00 A * m00 B + m01 A * m10 B + m02 A * m20 B)
       (m00 A * m01 B + m01 A * m11 B + m02 A * m21 B)
       (m00 A * m02 B + m01 A * m12 B + m02 A * m22 B)
       (m10 A * m00 B + m11 A * m10 B + m12 A * m20 B)
       (m10 A * m01 B + m11 A * m11 B + m12 A * m21 B)
       (m10 A * m02 B + m11 A * m12 B + m12 A * m22 B)
       (m20 A * m00 B + m21 A * m10 B + m22 A * m20 B)
       (m20 A * m01 B + m21 A * m11 B + m22 A * m21 B)
       (m20 A * m02 B + m21 A * m12 B + m22 A * m22 B).
Definition m3_id : m3 := mkM3 1 0 0 0 1 0 0 0 1.
Definition m3_det (M : m3) : R :=
  m00 M * (m11 M * m22 M - m12 M * m21 M) - m01 M * (m10 M * m22 M - m12 M * m20 M)
  + m02 M * (m10 M * m21 M - m11 M * m20 M).
Definition is_rotation (M : m3) : Prop :=
  m3_mul (m3_tr M) M = m3_id /\ m3_mul M (m3_tr M) = m3_id /\ m3_det M = 1.

(** ** Quaternions *)
Definition q_list (q : quat) : list R := [qw q; qx q; qy q; qz q].
Definition q_of (l : list R) : res quat := match l with [w; x; y; z] => Ok (mkQ w x y z) | _ => Err TypeError end.
Definition q_one : quat := mkQ 1 0 0 0.
Definition q_mul (a b : quat) : quat :=
  mkQ (qw a * qw b - qx a * qx b - qy a * qy b - qz a * qz b)
      (qw a * qx b + qx a * qw b + qy a * qz b - qz a * qy b)
      (qw a * qy b - qx a * qz b + qy a * qw b + qz a * qx b)
      (qw a * qz b + qx a * qy b - qy a * qx b + qz a * qw b).
Definition q_conj (q : quat) : quat := mkQ (qw q) (- qx q) (- qy q) (- qz q).
Definition q_neg (q : quat) : quat := mkQ (- qw q) (- qx q) (- qy q) (- qz q).
Definition q_norm2 (q : quat) : R := qw q * qw q + qx q * qx q + qy q * qy q + qz q * qz q.
Definition q_im (q : quat) : v3 := mkV (qx q) (qy q) (qz q).
Definition q_pure (v : v3) : quat := mkQ 0 (vx v) (vy v) (vz v).
(** jaxlie SO3.apply: imaginary part of q (0, p) q*. *)
Definition q_app (q : quat) (p : v3) : v3 := q_im (q_mul (q_mul q (q_pure p)) (q_conj q)).

(** The rotation matrix of a unit quaternion (textbook formula). *)
Definition q_mat (q : quat) : m3 :=
  mkM3 (1 - 2 * (qy q * qy q + qz q * qz q)) (2 * (qx q * qy q - qw q * qz q)) (2 * (qx q * qz q + qw q * qy q))
       (2 * (qx q * qy q + qw q * qz q)) (1 - 2 * (qx q * qx q + qz q * qz q)) (2 * (qy q * qz q - qw q * qx q))
       (2 * (qx q * qz q - qw q * qy q)) (2 * (qy q * qz q + qw q * qx q)) (1 - 2 * (qx q * qx q + qy q * qy q)).

(** jaxlie SO3.from_matrix: four cases, chosen by the signs of diagonal entries. *)
Definition from_matrix (M : m3) : quat :=
  let k t := 1 / 2 / sqrt t in
  if Rlt_dec (m22 M) 0 then
    if Rlt_dec (m11 M) (m00 M) then
      let t := 1 + m00 M - m11 M - m22 M in
      mkQ (k t * (m21 M - m12 M)) (k t * t) (k t * (m10 M + m01 M)) (k t * (m02 M + m20 M))
    else
      let t := 1 - m00 M + m11 M - m22 M in
      mkQ (k t * (m02 M - m20 M)) (k t * (m10 M + m01 M)) (k t * t) (k t * (m21 M + m12 M))
  else
    if Rlt_dec (m00 M) (- m11 M) then
      let t := 1 - m00 M - m11 M + m22 M in
      mkQ (k t * (m10 M - m01 M)) (k t * (m02 M + m20 M)) (k t * (m21 M + m12 M)) (k t * t)
    else
      let t := 1 + m00 M + m11 M + m22 M in
      mkQ (k t * t) (k t * (m21 M - m12 M)) (k t * (m02 M - m20 M)) (k t * (m10 M - m01 M)).

(** ** Logarithms.  [eps]: jaxlie's get_epsilon (1e-5 in float32, 1e-10 in
    float64), the switch-over to Taylor expansions. *)
Definition so3_factor (eps : R) (q : quat) : R :=
  let n2 := v3_norm2 (q_im q) in
  let w := qw q in
  if Rlt_dec n2 eps then 2 / w - 2 / 3 * n2 / (w * w * w)
  else
    let n := sqrt n2 in
    if Rlt_dec (Rabs w) eps then (if Rlt_dec 0 w then PI / n else - (PI / n))
    else 2 * atan ((if Rlt_dec w 0 then - n else n) / Rabs w) / n.
Definition so3_log (eps : R) (q : quat) : v3 := v3_scale (so3_factor eps q) (q_im q).

(** SE3: rotation and translation. *)
Record se3 := mkS { s_rot : quat; s_pos : v3 }.
Definition se3_id : se3 := mkS q_one v3_zero.
Definition se3_mul (a b : se3) : se3 := mkS (q_mul (s_rot a) (s_rot b)) (v3_add (q_app (s_rot a) (s_pos b)) (s_pos a)).
Definition se3_inv (a : se3) : se3 := mkS (q_conj (s_rot a)) (v3_neg (q_app (q_conj (s_rot a)) (s_pos a))).
Definition se3_of (l : list R) : res se3 :=              (* wxyz_xyz storage *)
  match l with [w; x; y; z; a; b; c] => Ok (mkS (mkQ w x y z) (mkV a b c)) | _ => Err TypeError end.

(** SE3.log: (V^-1 t, omega). *)
Definition v_inv (eps : R) (om t : v3) : v3 :=
  let th2 := v3_norm2 om in
  let k := if Rlt_dec th2 eps then 1 / 12
           else let th := sqrt th2 in (1 - th * cos (th / 2) / (2 * sin (th / 2))) / th2 in
  v3_add (v3_sub t (v3_scale (1 / 2) (cross om t))) (v3_scale k (cross om (cross om t))).
Definition se3_log (eps : R) (T : se3) : list R :=
  let om := so3_log eps (s_rot T) in v3_list (v_inv eps om (s_pos T)) ++ v3_list om.

(** Exponentials (SO3.exp, SE3.exp). *)
Definition so3_exp (eps : R) (om : v3) : quat :=
  let t2 := v3_norm2 om in
  if Rlt_dec t2 eps then
    let k := 1 / 2 - t2 / 48 + t2 * t2 / 3840 in
    mkQ (1 - t2 / 8 + t2 * t2 / 384) (k * vx om) (k * vy om) (k * vz om)
  else
    let th := sqrt t2 in let k := sin (th / 2) / th in
    mkQ (cos (th / 2)) (k * vx om) (k * vy om) (k * vz om).
Definition v_mat (eps : R) (om t : v3) : v3 :=           (* V @ t; Taylor: V = R *)
  let th2 := v3_norm2 om in
  if Rlt_dec th2 eps then q_app (so3_exp eps om) t
  else let th := sqrt th2 in
    v3_add (v3_add t (v3_scale ((1 - cos th) / th2) (cross om t)))
           (v3_scale ((th - sin th) / (th2 * th)) (cross om (cross om t))).
Definition se3_exp (eps : R) (tau : list R) : res se3 :=
  match tau with
  | [a; b; c; x; y; z] => let om := mkV x y z in Ok (mkS (so3_exp eps om) (v_mat eps om (mkV a b c)))
  | _ => Err TypeError
  end.

(** ** mujoco.mjx._src.math: normalize, axis_angle_to_quat, quat_integrate *)
Definition safe_div (x n : R) : R := x / (n + (if Req_EM_T n 0 then 1 / 1000000 else 0)).
Definition q_normalize (q : quat) : quat :=
  let n := sqrt (q_norm2 q) in mkQ (safe_div (qw q) n) (safe_div (qx q) n) (safe_div (qy q) n) (safe_div (qz q) n).
Definition quat_integrate (q : quat) (v : v3) (dt : R) : quat :=
  let n := sqrt (v3_norm2 v) in
  let ax := mkV (safe_div (vx v) n) (safe_div (vy v) n) (safe_div (vz v) n) in
  let a := dt * n in
  let s := sin (a * (1 / 2)) in let c := cos (a * (1 / 2)) in
  q_normalize (q_mul q (mkQ c (vx ax * s) (vy ax * s) (vz ax * s))).
