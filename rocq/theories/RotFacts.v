(** The quaternion read from a rotation matrix. *)
From Verif Require Import Base Lin Rot.
From Coq Require Import Nsatz.
Open Scope R_scope.

Lemma rot_eqs M : is_rotation M ->
  (m00 M = m11 M * m22 M - m12 M * m21 M /\ m01 M = m12 M * m20 M - m10 M * m22 M /\ m02 M = m10 M * m21 M - m11 M * m20 M /\
   m10 M = m02 M * m21 M - m01 M * m22 M /\ m11 M = m00 M * m22 M - m02 M * m20 M /\ m12 M = m01 M * m20 M - m00 M * m21 M /\
   m20 M = m01 M * m12 M - m02 M * m11 M /\ m21 M = m02 M * m10 M - m00 M * m12 M /\ m22 M = m00 M * m11 M - m01 M * m10 M) /\
  m00 M * m00 M + m10 M * m10 M + m20 M * m20 M = 1 /\ m01 M * m01 M + m11 M * m11 M + m21 M * m21 M = 1 /\ m02 M * m02 M + m12 M * m12 M + m22 M * m22 M = 1 /\
  m00 M * m00 M + m01 M * m01 M + m02 M * m02 M = 1 /\ m10 M * m10 M + m11 M * m11 M + m12 M * m12 M = 1 /\ m20 M * m20 M + m21 M * m21 M + m22 M * m22 M = 1 /\
  m00 M * m01 M + m10 M * m11 M + m20 M * m21 M = 0 /\ m00 M * m02 M + m10 M * m12 M + m20 M * m22 M = 0 /\ m01 M * m02 M + m11 M * m12 M + m21 M * m22 M = 0 /\
  m00 M * m10 M + m01 M * m11 M + m02 M * m12 M = 0 /\ m00 M * m20 M + m01 M * m21 M + m02 M * m22 M = 0 /\ m10 M * m20 M + m11 M * m21 M + m12 M * m22 M = 0.
Proof.
  destruct M as [a b c d e f g h i]. unfold is_rotation, m3_mul, m3_tr, m3_id, m3_det. cbn. intros (A & B & D).
  injection A as A1 A2 A3 A4 A5 A6 A7 A8 A9. injection B as B1 B2 B3 B4 B5 B6 B7 B8 B9.
  split; [repeat split; nsatz|]. repeat split; lra.
Qed.

Lemma half_scale t : 0 < t -> 4 * (1 / 2 / sqrt t) * (1 / 2 / sqrt t) * t = 1.
Proof.
  intros H. pose proof (sqrt_lt_R0 t H). rewrite <- (sqrt_sqrt t) at 3 by lra. field. lra.
Qed.
Lemma from_matrix_spec M : is_rotation M -> q_norm2 (from_matrix M) = 1 /\ q_mat (from_matrix M) = M.
Proof.
  intros HM. destruct (rot_eqs M HM) as ((C0 & C1 & C2 & C3 & C4 & C5 & C6 & C7 & C8) & N1 & N2 & N3 & N4 & N5 & N6 & O1 & O2 & O3 & O4 & O5 & O6).
  clear HM. destruct M as [a b c d e f g h i]. cbn [m00 m01 m02 m10 m11 m12 m20 m21 m22] in *.
  assert (K : forall k t w x y z, 4 * k * k * t = 1 ->
     w * w + x * x + y * y + z * z = 4 * t ->
     2 * (y * y + z * z) = 4 * t * (1 - a) -> 2 * (x * y - w * z) = 4 * t * b -> 2 * (x * z + w * y) = 4 * t * c ->
     2 * (x * y + w * z) = 4 * t * d -> 2 * (x * x + z * z) = 4 * t * (1 - e) -> 2 * (y * z - w * x) = 4 * t * f ->
     2 * (x * z - w * y) = 4 * t * g -> 2 * (y * z + w * x) = 4 * t * h -> 2 * (x * x + y * y) = 4 * t * (1 - i) ->
     q_norm2 (mkQ (k * w) (k * x) (k * y) (k * z)) = 1 /\ q_mat (mkQ (k * w) (k * x) (k * y) (k * z)) = mkM3 a b c d e f g h i).
  { intros k t w x y z Hk Hn H00 H01 H02 H10 H11 H12 H20 H21 H22. unfold q_norm2, q_mat. cbn [qw qx qy qz]. split.
    - replace (k * w * (k * w) + k * x * (k * x) + k * y * (k * y) + k * z * (k * z)) with (k * k * (w * w + x * x + y * y + z * z)) by ring. rewrite Hn. lra.
    - assert (U : forall u v, u = 4 * t * v -> k * k * u = v) by (intros u v ->; replace (k * k * (4 * t * v)) with (4 * k * k * t * v) by ring; rewrite Hk; ring).
      f_equal.
      + apply U in H00. lra.
      + apply U in H01. lra.
      + apply U in H02. lra.
      + apply U in H10. lra.
      + apply U in H11. lra.
      + apply U in H12. lra.
      + apply U in H20. lra.
      + apply U in H21. lra.
      + apply U in H22. lra. }
  unfold from_matrix. cbn [m00 m01 m02 m10 m11 m12 m20 m21 m22].
  destruct (Rlt_dec i 0); [destruct (Rlt_dec e a)|destruct (Rlt_dec a (- e))].
  - eapply (K _ (1 + a - e - i)); [apply half_scale; lra|clear K; repeat match goal with H : (_ < _)%R |- _ => clear H | H : ~ _ |- _ => clear H end; nsatz..].
  - eapply (K _ (1 - a + e - i)); [apply half_scale; lra|clear K; repeat match goal with H : (_ < _)%R |- _ => clear H | H : ~ _ |- _ => clear H end; nsatz..].
  - eapply (K _ (1 - a - e + i)); [apply half_scale; lra|clear K; repeat match goal with H : (_ < _)%R |- _ => clear H | H : ~ _ |- _ => clear H end; nsatz..].
  - eapply (K _ (1 + a + e + i)); [apply half_scale; lra|clear K; repeat match goal with H : (_ < _)%R |- _ => clear H | H : ~ _ |- _ => clear H end; nsatz..].
Qed.
