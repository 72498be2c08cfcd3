(** Integration of arrays that are long enough, read segment by segment. *)
From Verif Require Import Base Lin LinFacts Mjx Rot Conf.
Open Scope R_scope.

(** One joint consuming the front of qpos and qvel. *)
Definition integrate_joint (t : jnttype) (q v : list R) (dt : R) : res (list R) :=
  match t with
  | JFree => do p <- vec_at 0 q; do r <- quat_at 3 q; do lv <- vec_at 0 v; do av <- vec_at 3 v;
             Ok (v3_list (v3_add p (v3_scale dt lv)) ++ q_list (quat_integrate r av dt))
  | JBall => do r <- quat_at 0 q; do av <- vec_at 0 v; Ok (q_list (quat_integrate r av dt))
  | _ => match q, v with x :: _, w :: _ => Ok [x + dt * w] | _, _ => Err TypeError end
  end.
Fixpoint integrate_from (ts : list jnttype) (q v : list R) (dt : R) : res (list R) :=
  match ts with
  | [] => Ok []
  | t :: r => do x <- integrate_joint t q v dt;
              do rest <- integrate_from r (skipn (jnt_nq t) q) (skipn (jnt_nv t) v) dt;
              Ok (x ++ rest)
  end.

Lemma cut {A} k : forall (l : list A), (k <= List.length l)%nat -> exists a b, l = a ++ b /\ List.length a = k.
Proof. intros l H. exists (firstn k l), (skipn k l). split; [now rewrite firstn_skipn|]. rewrite firstn_length. lia. Qed.
Lemma jx_quat_four a b c d : jx_quat [a; b; c; d] = Ok (mkQ a b c d).
Proof. reflexivity. Qed.
Lemma jx_quat_integrate_four a b c d x y z dt :
  jx_quat_integrate [a; b; c; d] [x; y; z] dt = Ok (q_list (quat_integrate (mkQ a b c d) (mkV x y z) dt)).
Proof.
  unfold jx_quat_integrate. rewrite jx_quat_four. cbn [bind]. unfold turn_entries. cbn [map fold_right].
  rewrite jx_quat_four. cbn [bind]. unfold quat_integrate, v3_norm2, v3_dot. cbn [vx vy vz].
  replace (x * x + (y * y + (z * z + 0))) with (x * x + y * y + z * z) by ring. reflexivity.
Qed.
Lemma jx_idx_front {A} (l : list A) i x r : skipn i l = x :: r -> jx_idx l (Z.of_nat i) = Ok x.
Proof.
  intros H. assert (L : (i < List.length l)%nat).
  { destruct (le_lt_dec (List.length l) i) as [G|G]; [|exact G]. rewrite skipn_all2 in H by exact G. discriminate. }
  unfold jx_idx. cbv zeta. destruct (Z.ltb_spec (Z.of_nat i) 0) as [|_]; [lia|].
  replace (Z.to_nat (Z.max 0 (Z.min (Z.of_nat i) (Z.of_nat (List.length l) - 1)))) with i by lia.
  rewrite <- (firstn_skipn i l) at 1. rewrite nth_error_app2; rewrite firstn_length, Nat.min_l by lia; [|lia].
  now rewrite Nat.sub_diag, H.
Qed.
Lemma slice_front {A} a k (l : list A) x r : skipn a l = x ++ r -> List.length x = k -> slice a k l = x.
Proof. intros H L. unfold slice. rewrite H, <- L, firstn_app, Nat.sub_diag, firstn_all. cbn. apply app_nil_r. Qed.
Lemma slice_skip {A} a i k (l : list A) : slice (a + i) k l = slice i k (skipn a l).
Proof. unfold slice. f_equal. revert l. induction a as [|a IH]; intros l; [reflexivity|]. destruct l as [|x l]; [now rewrite !skipn_nil|]. cbn [Nat.add skipn]. apply IH. Qed.

Lemma integrate_at_joint t qi vi q v dt : (qi + jnt_nq t <= List.length q)%nat -> (vi + jnt_nv t <= List.length v)%nat ->
  integrate_at t qi vi q v dt = integrate_joint t (skipn qi q) (skipn vi v) dt.
Proof.
  intros Hq Hv. assert (Lq : (jnt_nq t <= List.length (skipn qi q))%nat) by (rewrite skipn_length; lia).
  assert (Lv : (jnt_nv t <= List.length (skipn vi v))%nat) by (rewrite skipn_length; lia).
  destruct t; cbn [jnt_nq jnt_nv] in *; unfold integrate_at, integrate_joint.
  - rewrite !slice_skip. rewrite <- (Nat.add_0_r qi) at 1. rewrite <- (Nat.add_0_r vi) at 1. rewrite !slice_skip.
    destruct (skipn qi q) as [|a1 [|a2 [|a3 [|a4 [|a5 [|a6 [|a7 qr]]]]]]]; cbn in Lq; try lia.
    destruct (skipn vi v) as [|b1 [|b2 [|b3 [|b4 [|b5 [|b6 vr]]]]]]; cbn in Lv; try lia.
    unfold slice, vec_at, quat_at, slice. cbn [skipn firstn map]. rewrite jx_quat_integrate_four. reflexivity.
  - rewrite <- (Nat.add_0_r qi) at 1. rewrite <- (Nat.add_0_r vi) at 1. rewrite !slice_skip.
    destruct (skipn qi q) as [|a1 [|a2 [|a3 [|a4 qr]]]]; cbn in Lq; try lia.
    destruct (skipn vi v) as [|b1 [|b2 [|b3 vr]]]; cbn in Lv; try lia.
    unfold slice, vec_at, quat_at, slice. cbn [skipn firstn map]. rewrite jx_quat_integrate_four. reflexivity.
  - destruct (skipn qi q) as [|x qr] eqn:E1; [cbn in Lq; lia|]. destruct (skipn vi v) as [|w vr] eqn:E2; [cbn in Lv; lia|].
    now rewrite (jx_idx_front q qi x qr E1), (jx_idx_front v vi w vr E2).
  - destruct (skipn qi q) as [|x qr] eqn:E1; [cbn in Lq; lia|]. destruct (skipn vi v) as [|w vr] eqn:E2; [cbn in Lv; lia|].
    now rewrite (jx_idx_front q qi x qr E1), (jx_idx_front v vi w vr E2).
Qed.
Lemma skip_skip {A} a b (l : list A) : skipn b (skipn a l) = skipn (a + b) l.
Proof. revert l. induction a as [|a IH]; intros l; [reflexivity|]. destruct l as [|x l]; [now rewrite !skipn_nil|]. cbn [Nat.add skipn]. apply IH. Qed.
Lemma integrate_all_from ts : forall qi vi q v dt, (qi + total jnt_nq ts <= List.length q)%nat -> (vi + total jnt_nv ts <= List.length v)%nat ->
  integrate_all ts qi vi q v dt = integrate_from ts (skipn qi q) (skipn vi v) dt.
Proof.
  induction ts as [|t ts IH]; intros qi vi q v dt Hq Hv; [reflexivity|].
  assert (S : forall (size : jnttype -> nat), total size (t :: ts) = (size t + total size ts)%nat) by reflexivity. rewrite S in Hq, Hv.
  cbn [integrate_all integrate_from]. rewrite integrate_at_joint by lia. rewrite IH by lia. now rewrite !skip_skip.
Qed.
Lemma integrate_sized m q v dt : (total jnt_nq (m_jnt_type m) <= List.length q)%nat -> (total jnt_nv (m_jnt_type m) <= List.length v)%nat ->
  integrate m q v dt = integrate_from (m_jnt_type m) q v dt.
Proof. intros Hq Hv. unfold integrate. now rewrite integrate_all_from. Qed.
