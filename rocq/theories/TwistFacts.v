(** C123: motion with a constant twist, and the frame error as the twist that leads to the target. *)
From Verif Require Import Base Lin LinFacts Rot SpecConf SpecValue SpecTwist ConfFacts ConfFacts2 RotFacts VizFacts ValueFacts4.
From Coquelicot Require Import Coquelicot.
Open Scope R_scope.

(** ** Rotation by the angle [b] about the unit axis [u]. *)
Definition turn (b : R) (u : v3) : m3 := q_mat (mkQ (cos (b / 2)) (sin (b / 2) * vx u) (sin (b / 2) * vy u) (sin (b / 2) * vz u)).
Lemma half_sc b : sin (b / 2) * sin (b / 2) + cos (b / 2) * cos (b / 2) = 1.
Proof. pose proof (sin2_cos2 (b / 2)) as H. unfold Rsqr in H. exact H. Qed.
Lemma turn_unit b u : v3_norm2 u = 1 -> q_norm2 (mkQ (cos (b / 2)) (sin (b / 2) * vx u) (sin (b / 2) * vy u) (sin (b / 2) * vz u)) = 1.
Proof.
  intros Hu. unfold q_norm2. cbn [qw qx qy qz]. pose proof (half_sc b). unfold v3_norm2, v3_dot in Hu.
  replace (cos (b / 2) * cos (b / 2) + sin (b / 2) * vx u * (sin (b / 2) * vx u) + sin (b / 2) * vy u * (sin (b / 2) * vy u) + sin (b / 2) * vz u * (sin (b / 2) * vz u))
    with (cos (b / 2) * cos (b / 2) + sin (b / 2) * sin (b / 2) * (vx u * vx u + vy u * vy u + vz u * vz u)) by ring. rewrite Hu. lra.
Qed.
Lemma turn_rotation b u : v3_norm2 u = 1 -> is_rotation (turn b u).
Proof. intros Hu. apply q_mat_rotation, turn_unit, Hu. Qed.
(** Rodrigues' formula. *)
Definition rodrigues (c s : R) (u : v3) : m3 :=
  let '(mkV x y z) := u in
  mkM3 (c + (1 - c) * (x * x)) ((1 - c) * (x * y) - s * z) ((1 - c) * (x * z) + s * y)
       ((1 - c) * (x * y) + s * z) (c + (1 - c) * (y * y)) ((1 - c) * (y * z) - s * x)
       ((1 - c) * (x * z) - s * y) ((1 - c) * (y * z) + s * x) (c + (1 - c) * (z * z)).
Lemma turn_rodrigues b u : v3_norm2 u = 1 -> turn b u = rodrigues (cos b) (sin b) u.
Proof.
  intros Hu. assert (C : cos b = 1 - 2 * (sin (b / 2) * sin (b / 2))) by (replace b with (2 * (b / 2)) at 1 by field; rewrite cos_2a_sin; ring).
  assert (S : sin b = 2 * sin (b / 2) * cos (b / 2)) by (replace b with (2 * (b / 2)) at 1 by field; rewrite sin_2a; ring).
  unfold turn. rewrite C, S. pose proof (half_sc b) as H. set (s := sin (b / 2)) in *. set (c := cos (b / 2)) in *. clearbody s c. destruct u as [x y z]. unfold v3_norm2, v3_dot in Hu. cbn in Hu.
  assert (Z : z * z = 1 - x * x - y * y) by lra. unfold q_mat, rodrigues. cbn [qw qx qy qz vx vy vz]. f_equal; try ring.
  - replace (2 * (s * y * (s * y) + s * z * (s * z))) with (2 * (s * s) * (y * y + z * z)) by ring. rewrite Z. ring.
  - replace (2 * (s * x * (s * x) + s * z * (s * z))) with (2 * (s * s) * (x * x + z * z)) by ring. rewrite Z. ring.
  - replace (x * x) with (1 - y * y - z * z) by lra. rewrite Z. ring_simplify. replace (x ^ 2) with (1 - y * y - z * z) by (cbn; lra). ring.
Qed.

(** ** The motion with a constant twist is unique. *)
Lemma flat_const f : (forall s, derivable_pt_lim f s 0) -> forall s, f s = f 0.
Proof. intros H s. refine (null_derivative_1 f (fun x => exist _ 0 (H x)) _ s 0). intros x. reflexivity. Qed.
Definition rowmul (r : v3) (M : m3) : v3 := m3_app (m3_tr M) r.
Lemma row_mul A B : row0 (m3_mul A B) = rowmul (row0 A) B /\ row1 (m3_mul A B) = rowmul (row1 A) B /\ row2 (m3_mul A B) = rowmul (row2 A) B.
Proof. unfold row0, row1, row2, rowmul, m3_app, m3_tr, m3_mul. cbn. repeat split; f_equal; ring. Qed.
Lemma wave p q r a t : derivable_pt_lim (fun s => p + q * cos (s * a) + r * sin (s * a)) t (a * (r * cos (t * a) - q * sin (t * a))).
Proof. apply is_derive_Reals. auto_derive; [exact I|]. ring. Qed.
Lemma comb3 A B C f g h t A' B' C' f' g' h' : derivable_pt_lim A t A' -> derivable_pt_lim B t B' -> derivable_pt_lim C t C' ->
  derivable_pt_lim f t f' -> derivable_pt_lim g t g' -> derivable_pt_lim h t h' ->
  derivable_pt_lim (fun s => A s * f s + B s * g s + C s * h s) t (A' * f t + A t * f' + (B' * g t + B t * g') + (C' * h t + C t * h')).
Proof.
  intros HA HB HC Hf Hg Hh. refine (derivable_pt_lim_plus (fun s => A s * f s + B s * g s) (fun s => C s * h s) t _ _ _ (derivable_pt_lim_mult C h t C' h' HC Hh)).
  exact (derivable_pt_lim_plus (fun s => A s * f s) (fun s => B s * g s) t _ _ (derivable_pt_lim_mult A f t A' f' HA Hf) (derivable_pt_lim_mult B g t B' g' HB Hg)).
Qed.
Lemma flat_comb a p1 q1 r1 p2 q2 r2 p3 q3 r3 f g h f' g' h' :
  (forall t, derivable_pt_lim f t (f' t)) -> (forall t, derivable_pt_lim g t (g' t)) -> (forall t, derivable_pt_lim h t (h' t)) ->
  (forall t C S, a * (r1 * C - q1 * S) * f t + (p1 + q1 * C + r1 * S) * f' t + (a * (r2 * C - q2 * S) * g t + (p2 + q2 * C + r2 * S) * g' t) + (a * (r3 * C - q3 * S) * h t + (p3 + q3 * C + r3 * S) * h' t) = 0) ->
  forall s, (p1 + q1 * cos (s * a) + r1 * sin (s * a)) * f s + (p2 + q2 * cos (s * a) + r2 * sin (s * a)) * g s + (p3 + q3 * cos (s * a) + r3 * sin (s * a)) * h s
          = (p1 + q1) * f 0 + (p2 + q2) * g 0 + (p3 + q3) * h 0.
Proof.
  intros Hf Hg Hh H s.
  rewrite (flat_const (fun s => (p1 + q1 * cos (s * a) + r1 * sin (s * a)) * f s + (p2 + q2 * cos (s * a) + r2 * sin (s * a)) * g s + (p3 + q3 * cos (s * a) + r3 * sin (s * a)) * h s)); [rewrite Rmult_0_l, cos_0, sin_0; ring|].
  intros t. rewrite <- (H t (cos (t * a)) (sin (t * a))). exact (comb3 _ _ _ f g h t _ _ _ _ _ _ (wave p1 q1 r1 a t) (wave p2 q2 r2 a t) (wave p3 q3 r3 a t) (Hf t) (Hg t) (Hh t)).
Qed.
Lemma row_moves a u (r : R -> v3) : v3_norm2 u = 1 -> (forall s, rate_v r s (rowmul (r s) (cross_mat (v3_scale a u)))) -> forall s, r s = rowmul (r 0) (turn (s * a) u).
Proof.
  intros Hu H.
  assert (F : forall s, m3_app (turn (s * a) u) (r s) = r 0).
  { intros s. rewrite turn_rodrigues by exact Hu. destruct u as [x y z]. unfold v3_norm2, v3_dot in Hu. cbn in Hu. unfold rate_v, rowmul, m3_tr, cross_mat, v3_scale, m3_app in H. cbn [m00 m01 m02 m10 m11 m12 m20 m21 m22 vx vy vz] in H.
    assert (Hf := fun s => proj1 (H s)). assert (Hg := fun s => proj1 (proj2 (H s))). assert (Hh := fun s => proj2 (proj2 (H s))). cbn beta in Hf, Hg, Hh.
    assert (Z : z * z = 1 - x * x - y * y) by lra.
    transitivity (mkV (vx (r 0)) (vy (r 0)) (vz (r 0))); [|now destruct (r 0)]. unfold m3_app, rodrigues. cbn [m00 m01 m02 m10 m11 m12 m20 m21 m22]. f_equal.
    - pose proof (flat_comb a (x * x) (1 - x * x) 0 (x * y) (- (x * y)) (- z) (x * z) (- (x * z)) y _ _ _ _ _ _ Hf Hg Hh) as E. cbn beta in E.
      transitivity ((x * x + (1 - x * x)) * vx (r 0) + (x * y + - (x * y)) * vy (r 0) + (x * z + - (x * z)) * vz (r 0)); [rewrite <- (E) with (s := s); [ring|]|ring].
      intros t C S. transitivity (a * S * vx (r t) * (x * x + y * y + z * z - 1)); [ring|rewrite Z; ring].
    - pose proof (flat_comb a (x * y) (- (x * y)) z (y * y) (1 - y * y) 0 (y * z) (- (y * z)) (- x) _ _ _ _ _ _ Hf Hg Hh) as E. cbn beta in E.
      transitivity ((x * y + - (x * y)) * vx (r 0) + (y * y + (1 - y * y)) * vy (r 0) + (y * z + - (y * z)) * vz (r 0)); [rewrite <- (E) with (s := s); [ring|]|ring].
      intros t C S. transitivity (a * S * vy (r t) * (x * x + y * y + z * z - 1)); [ring|rewrite Z; ring].
    - pose proof (flat_comb a (x * z) (- (x * z)) (- y) (y * z) (- (y * z)) x (z * z) (1 - z * z) 0 _ _ _ _ _ _ Hf Hg Hh) as E. cbn beta in E.
      transitivity ((x * z + - (x * z)) * vx (r 0) + (y * z + - (y * z)) * vy (r 0) + (z * z + (1 - z * z)) * vz (r 0)); [rewrite <- (E) with (s := s); [ring|]|ring].
      intros t C S. transitivity (a * S * vz (r t) * (x * x + y * y + z * z - 1)); [ring|rewrite Z; ring]. }
  intros s. unfold rowmul. rewrite <- (F s), <- m3_app_mul. destruct (turn_rotation (s * a) u Hu) as (E & _). now rewrite E, m3_app_id.
Qed.

(** The displacement after time [s] in the frame of the start. *)
Definition travelled (s a : R) (u l : v3) : v3 :=
  v3_add (v3_add (v3_scale s l) (v3_scale ((1 - cos (s * a)) / a) (cross u l))) (v3_scale (s - sin (s * a) / a) (cross u (cross u l))).
Lemma travel_entry a A B C t : a <> 0 -> derivable_pt_lim (fun s => s * A + (1 - cos (s * a)) / a * B + (s - sin (s * a) / a) * C) t (A + sin (t * a) * B + (1 - cos (t * a)) * C).
Proof. intros Ha. apply is_derive_Reals. auto_derive; [exact I|]. field. exact Ha. Qed.
Lemma travel_rate a u l t : a <> 0 -> v3_norm2 u = 1 -> rate_v (fun s => travelled s a u l) t (m3_app (turn (t * a) u) l).
Proof.
  intros Ha Hu. rewrite turn_rodrigues by exact Hu. destruct u as [x y z], l as [p q r]. unfold v3_norm2, v3_dot in Hu. cbn in Hu. assert (Z : z * z = 1 - x * x - y * y) by lra.
  unfold rate_v, travelled, v3_add, v3_scale, cross, m3_app, rodrigues. cbn [m00 m01 m02 m10 m11 m12 m20 m21 m22 vx vy vz]. split; [|split].
  - match goal with |- derivable_pt_lim _ _ ?v => replace v with (p + sin (t * a) * (y * r - z * q) + (1 - cos (t * a)) * (y * (x * q - y * p) - z * (z * p - x * r))) end; [now apply travel_entry|].
    replace (y * (x * q - y * p) - z * (z * p - x * r)) with (x * y * q - y * y * p - z * z * p + x * z * r) by ring. rewrite Z. ring.
  - match goal with |- derivable_pt_lim _ _ ?v => replace v with (q + sin (t * a) * (z * p - x * r) + (1 - cos (t * a)) * (z * (y * r - z * q) - x * (x * q - y * p))) end; [now apply travel_entry|].
    replace (z * (y * r - z * q) - x * (x * q - y * p)) with (y * z * r - z * z * q - x * x * q + x * y * p) by ring. rewrite Z. ring.
  - match goal with |- derivable_pt_lim _ _ ?v => replace v with (r + sin (t * a) * (x * q - y * p) + (1 - cos (t * a)) * (x * (z * p - x * r) - y * (y * r - z * q))) end; [now apply travel_entry|].
    replace (x * (z * p - x * r) - y * (y * r - z * q)) with (x * z * p - (x * x + y * y) * r + y * z * q) by ring. replace (x * x + y * y) with (1 - z * z) by lra. ring.
Qed.
Lemma travel_zero a u l : travelled 0 a u l = v3_zero.
Proof. unfold travelled, v3_add, v3_scale, v3_zero. cbn. rewrite (Rmult_0_l a), cos_0, sin_0. unfold Rdiv. f_equal; ring. Qed.
Lemma dot_rate X t D r : rate_v X t D -> derivable_pt_lim (fun s => v3_dot r (X s)) t (v3_dot r D).
Proof.
  intros (A & B & C). unfold v3_dot.
  refine (derivable_pt_lim_plus (fun s => vx r * vx (X s) + vy r * vy (X s)) (fun s => vz r * vz (X s)) t _ _ _ (derivable_pt_lim_scal (fun s => vz (X s)) (vz r) t _ C)).
  exact (derivable_pt_lim_plus (fun s => vx r * vx (X s)) (fun s => vy r * vy (X s)) t _ _ (derivable_pt_lim_scal (fun s => vx (X s)) (vx r) t _ A) (derivable_pt_lim_scal (fun s => vy (X s)) (vy r) t _ B)).
Qed.
Lemma entry_moves a u l (r0 : v3) (f : R -> R) : a <> 0 -> v3_norm2 u = 1 -> (forall s, derivable_pt_lim f s (v3_dot (rowmul r0 (turn (s * a) u)) l)) -> forall s, f s = f 0 + v3_dot r0 (travelled s a u l).
Proof.
  intros Ha Hu H s. assert (E : forall s, f s - v3_dot r0 (travelled s a u l) = f 0 - v3_dot r0 (travelled 0 a u l)).
  { apply (flat_const (fun s => f s - v3_dot r0 (travelled s a u l))). intros t.
    replace 0 with (v3_dot (rowmul r0 (turn (t * a) u)) l - v3_dot r0 (m3_app (turn (t * a) u) l)) by (unfold rowmul, v3_dot, m3_app, m3_tr; cbn; ring).
    exact (derivable_pt_lim_minus f (fun s => v3_dot r0 (travelled s a u l)) t _ _ (H t) (dot_rate _ t _ r0 (travel_rate a u l t Ha Hu))). }
  specialize (E s). rewrite travel_zero in E. replace (v3_dot r0 v3_zero) with 0 in E by (unfold v3_dot, v3_zero; cbn; ring). lra.
Qed.
Lemma m3_rows M : M = mkM3 (vx (row0 M)) (vy (row0 M)) (vz (row0 M)) (vx (row1 M)) (vy (row1 M)) (vz (row1 M)) (vx (row2 M)) (vy (row2 M)) (vz (row2 M)).
Proof. now destruct M. Qed.
(** Where a body with constant twist is after time [s]. *)
Lemma twist_unique a u l Q X : a <> 0 -> v3_norm2 u = 1 -> moves_with l (v3_scale a u) Q X -> forall s,
  Q s = m3_mul (Q 0) (turn (s * a) u) /\ X s = v3_add (X 0) (m3_app (Q 0) (travelled s a u l)).
Proof.
  intros Ha Hu H.
  assert (R0 : forall s, row0 (Q s) = rowmul (row0 (Q 0)) (turn (s * a) u)) by (apply (row_moves a u (fun t => row0 (Q t)) Hu); intros s; rewrite <- (proj1 (row_mul _ _)); apply (H s)).
  assert (R1 : forall s, row1 (Q s) = rowmul (row1 (Q 0)) (turn (s * a) u)) by (apply (row_moves a u (fun t => row1 (Q t)) Hu); intros s; rewrite <- (proj1 (proj2 (row_mul _ _))); apply (H s)).
  assert (R2 : forall s, row2 (Q s) = rowmul (row2 (Q 0)) (turn (s * a) u)) by (apply (row_moves a u (fun t => row2 (Q t)) Hu); intros s; rewrite <- (proj2 (proj2 (row_mul _ _))); apply (H s)).
  intros s. split.
  - rewrite (m3_rows (Q s)), (m3_rows (m3_mul (Q 0) (turn (s * a) u))). destruct (row_mul (Q 0) (turn (s * a) u)) as (-> & -> & ->). now rewrite R0, R1, R2.
  - transitivity (mkV (vx (X s)) (vy (X s)) (vz (X s))); [now destruct (X s)|]. unfold v3_add, m3_app. cbn [vx vy vz]. f_equal.
    + apply (entry_moves a u l (row0 (Q 0)) (fun t => vx (X t)) Ha Hu). intros t. rewrite <- R0. exact (proj1 (proj2 (H t))).
    + apply (entry_moves a u l (row1 (Q 0)) (fun t => vy (X t)) Ha Hu). intros t. rewrite <- R1. exact (proj1 (proj2 (proj2 (H t)))).
    + apply (entry_moves a u l (row2 (Q 0)) (fun t => vz (X t)) Ha Hu). intros t. rewrite <- R2. exact (proj2 (proj2 (proj2 (H t)))).
Qed.
(** There is such a motion from every start. *)
Lemma turn_rate a u t r : v3_norm2 u = 1 -> rate_v (fun s => rowmul r (turn (s * a) u)) t (rowmul (rowmul r (turn (t * a) u)) (cross_mat (v3_scale a u))).
Proof.
  intros Hu. assert (E : forall s, rowmul r (turn (s * a) u) = rowmul r (rodrigues (cos (s * a)) (sin (s * a)) u)) by (intros; now rewrite turn_rodrigues).
  rewrite E. destruct u as [x y z], r as [p q w]. unfold v3_norm2, v3_dot in Hu. cbn in Hu. assert (Z : z * z = 1 - x * x - y * y) by lra.
  assert (Ext : forall (f g : R -> R) l, (forall s, f s = g s) -> derivable_pt_lim g t l -> derivable_pt_lim f t l) by (intros f g l Hfg Hg; apply is_derive_Reals; apply is_derive_Reals in Hg; eapply is_derive_ext; [intros; symmetry; apply Hfg|exact Hg]).
  unfold rate_v. split; [|split].
  - eapply (Ext _ (fun s => (p * (x * x) + q * (x * y) + w * (x * z)) + (p * (1 - x * x) - q * (x * y) - w * (x * z)) * cos (s * a) + (q * z - w * y) * sin (s * a))).
    + intros s. rewrite E. unfold rowmul, m3_app, m3_tr, rodrigues. cbn. ring.
    + match goal with |- derivable_pt_lim _ _ ?v => replace v with (a * ((q * z - w * y) * cos (t * a) - (p * (1 - x * x) - q * (x * y) - w * (x * z)) * sin (t * a))) end; [apply wave|].
      unfold rowmul, m3_app, m3_tr, rodrigues, cross_mat, v3_scale. cbn. generalize (cos (t * a)) (sin (t * a)). intros C S.
      symmetry. match goal with |- ?v = ?k => transitivity (k + p * a * S * (1 - x * x - y * y - z * z)) end; [ring|rewrite Z; ring].
  - eapply (Ext _ (fun s => (p * (x * y) + q * (y * y) + w * (y * z)) + (q * (1 - y * y) - p * (x * y) - w * (y * z)) * cos (s * a) + (w * x - p * z) * sin (s * a))).
    + intros s. rewrite E. unfold rowmul, m3_app, m3_tr, rodrigues. cbn. ring.
    + match goal with |- derivable_pt_lim _ _ ?v => replace v with (a * ((w * x - p * z) * cos (t * a) - (q * (1 - y * y) - p * (x * y) - w * (y * z)) * sin (t * a))) end; [apply wave|].
      unfold rowmul, m3_app, m3_tr, rodrigues, cross_mat, v3_scale. cbn. generalize (cos (t * a)) (sin (t * a)). intros C S.
      symmetry. match goal with |- ?v = ?k => transitivity (k + q * a * S * (1 - x * x - y * y - z * z)) end; [ring|rewrite Z; ring].
  - eapply (Ext _ (fun s => (p * (x * z) + q * (y * z) + w * (z * z)) + (w * (1 - z * z) - p * (x * z) - q * (y * z)) * cos (s * a) + (p * y - q * x) * sin (s * a))).
    + intros s. rewrite E. unfold rowmul, m3_app, m3_tr, rodrigues. cbn. ring.
    + match goal with |- derivable_pt_lim _ _ ?v => replace v with (a * ((p * y - q * x) * cos (t * a) - (w * (1 - z * z) - p * (x * z) - q * (y * z)) * sin (t * a))) end; [apply wave|].
      unfold rowmul, m3_app, m3_tr, rodrigues, cross_mat, v3_scale. cbn. generalize (cos (t * a)) (sin (t * a)). intros C S.
      symmetry. match goal with |- ?v = ?k => transitivity (k + w * a * S * (1 - x * x - y * y - z * z)) end; [ring|rewrite Z; ring].
Qed.
Lemma rate_ext X Y t D : (forall s, X s = Y s) -> rate_v Y t D -> rate_v X t D.
Proof.
  intros E (A & B & C). apply is_derive_Reals in A, B, C.
  split; [|split]; apply is_derive_Reals; [refine (is_derive_ext _ _ _ _ _ A)|refine (is_derive_ext _ _ _ _ _ B)|refine (is_derive_ext _ _ _ _ _ C)]; intros s; now rewrite E.
Qed.
Lemma twist_exists a u l M x : a <> 0 -> v3_norm2 u = 1 -> exists Q X, moves_with l (v3_scale a u) Q X /\ Q 0 = M /\ X 0 = x.
Proof.
  intros Ha Hu. exists (fun s => m3_mul M (turn (s * a) u)), (fun s => v3_add x (m3_app M (travelled s a u l))). split; [|split].
  - intros s. split.
    + destruct (row_mul (m3_mul M (turn (s * a) u)) (cross_mat (v3_scale a u))) as (E0 & E1 & E2). destruct (row_mul M (turn (s * a) u)) as (F0 & F1 & F2).
      unfold rate_m. rewrite E0, E1, E2, F0, F1, F2.
      split; [|split].
      * refine (rate_ext _ _ _ _ _ (turn_rate a u s (row0 M) Hu)). intros t. apply row_mul.
      * refine (rate_ext _ _ _ _ _ (turn_rate a u s (row1 M) Hu)). intros t. apply row_mul.
      * refine (rate_ext _ _ _ _ _ (turn_rate a u s (row2 M) Hu)). intros t. apply row_mul.
    + pose proof (travel_rate a u l s Ha Hu) as T.
      assert (P : forall r c, derivable_pt_lim (fun t => c + v3_dot r (travelled t a u l)) s (v3_dot r (m3_app (turn (s * a) u) l))).
      { intros r c. replace (v3_dot r (m3_app (turn (s * a) u) l)) with (0 + v3_dot r (m3_app (turn (s * a) u) l)) by ring. exact (derivable_pt_lim_plus (fun _ => c) (fun t => v3_dot r (travelled t a u l)) s _ _ (derivable_pt_lim_const c s) (dot_rate _ s _ r T)). }
      rewrite m3_app_mul. split; [|split]; [exact (P (row0 M) (vx x))|exact (P (row1 M) (vy x))|exact (P (row2 M) (vz x))].
  - rewrite Rmult_0_l, turn_rodrigues by exact Hu. rewrite cos_0, sin_0. destruct M, u. unfold m3_mul, rodrigues. cbn. f_equal; ring.
  - rewrite travel_zero. destruct x. unfold v3_add, m3_app, v3_zero. cbn. f_equal; ring.
Qed.
