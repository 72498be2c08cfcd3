(** The derivative at 0 of  tau |-> log (T * exp tau)  for a translation T. *)
From Coq Require Import Lia.
From Verif Require Import Base Lin Mjx Typing Component SpecJoint SpecMotion SpecConf Rot Conf JaxComponents SpecDeriv LinFacts ConfFacts DerivFacts.
Open Scope R_scope.

Definition O6 : vec := [0; 0; 0; 0; 0; 0].
(** Value and gradient at the origin of R^6. *)
Definition vg (F : vec -> R) (c : R) (g : vec) : Prop := F O6 = c /\ List.length g = 6%nat /\ has_gradient F O6 g.
Lemma vg_const c : vg (fun _ => c) c O6.
Proof. split; [reflexivity|]. split; [reflexivity|]. exact (grad_const c O6). Qed.
Lemma vg_coord i : (i < 6)%nat -> vg (fun y => nth i y 0) 0 (unit_row 6 i).
Proof. intros H. split; [do 6 (destruct i as [|i]; [reflexivity|]); lia|]. split; [do 6 (destruct i as [|i]; [reflexivity|]); lia|]. exact (grad_coord i O6 H). Qed.
Lemma vg_add F G c d g h : vg F c g -> vg G d h -> vg (fun y => F y + G y) (c + d) (vadd g h).
Proof. intros (A & L & B) (C & M & D). split; [congruence|]. split; [rewrite vadd_length; congruence|]. apply grad_add; auto. congruence. Qed.
Lemma vg_sub F G c d g h : vg F c g -> vg G d h -> vg (fun y => F y - G y) (c - d) (vsub g h).
Proof. intros (A & L & B) (C & M & D). split; [congruence|]. split; [rewrite vsub_length; congruence|]. apply grad_sub; auto. congruence. Qed.
Lemma vg_mul F G c d g h : vg F c g -> vg G d h -> vg (fun y => F y * G y) (c * d) (vadd (vscale d g) (vscale c h)).
Proof. intros (A & L & B) (C & M & D). split; [congruence|]. split; [rewrite vadd_length, !vscale_length; rewrite ?vscale_length; congruence|]. rewrite <- A, <- C. apply grad_mul; auto. congruence. Qed.
Lemma vg_inv F c g : c <> 0 -> vg F c g -> vg (fun y => / F y) (/ c) (vscale (- / (c * c)) g).
Proof. intros N (A & L & B). split; [congruence|]. split; [now rewrite vscale_length|]. rewrite <- A. apply grad_inv; [congruence|exact B]. Qed.
Lemma vg_opp F c g : vg F c g -> vg (fun y => - F y) (- c) (vneg g).
Proof. intros (A & L & B). split; [congruence|]. split; [now rewrite vneg_length|]. now apply grad_opp. Qed.
Lemma vg_eq F c c' g g' : c = c' -> g = g' -> vg F c g -> vg F c' g'. Proof. now intros -> ->. Qed.

Ltac six := unfold O6, unit_row, vadd, vsub, vscale, vneg, vmap2; cbn; repeat (apply f_equal2; [try field|]); try reflexivity.
Ltac vgt :=
  lazymatch goal with
  | H : vg ?F _ _ |- vg ?F _ _ => exact H
  | |- vg (fun y => _ + _) _ _ => first [apply vg_const | eapply vg_add; vgt]
  | |- vg (fun y => _ - _) _ _ => first [apply vg_const | eapply vg_sub; vgt]
  | |- vg (fun y => _ * _) _ _ => first [apply vg_const | eapply vg_mul; vgt]
  | |- vg (fun y => - _) _ _ => first [apply vg_const | eapply vg_opp; vgt]
  | |- vg (fun y => nth ?i y 0) _ _ => apply vg_coord; lia
  | |- _ => first [eassumption | apply vg_const]
  end.

Definition rho (i : nat) (y : vec) : R := nth i y 0.
Definition t2 (y : vec) : R := nth 3 y 0 * nth 3 y 0 + nth 4 y 0 * nth 4 y 0 + nth 5 y 0 * nth 5 y 0.
Definition kk (y : vec) : R := 1 / 2 - t2 y * / 48 + t2 y * t2 y * / 3840.
Definition ww (y : vec) : R := 1 - t2 y * / 8 + t2 y * t2 y * / 384.
Lemma t2_vg : vg t2 0 O6.
Proof. eapply vg_eq; [| |unfold t2; vgt]; [cbn; ring|six]. Qed.
Lemma kk_vg : vg kk (1 / 2) O6.
Proof. pose proof t2_vg. eapply vg_eq; [| |unfold kk; vgt]; [cbn; field|six]. Qed.
Lemma ww_vg : vg ww 1 O6.
Proof. pose proof t2_vg. eapply vg_eq; [| |unfold ww; vgt]; [cbn; field|six]. Qed.
Definition qq (i : nat) (y : vec) : R := kk y * nth (3 + i) y 0.
Lemma qq_vg i : (i < 3)%nat -> vg (qq i) 0 (vscale (1 / 2) (unit_row 6 (3 + i))).
Proof.
  intros Hi. pose proof kk_vg. eapply vg_eq; [| |unfold qq; eapply vg_mul; [exact kk_vg|apply vg_coord; lia]]; [ring|].
  destruct i as [|[|[|i]]]; [| | |lia]; six.
Qed.
Definition n2 (y : vec) : R := qq 0 y * qq 0 y + qq 1 y * qq 1 y + qq 2 y * qq 2 y.
Lemma n2_vg : vg n2 0 O6.
Proof. pose proof (qq_vg 0 ltac:(lia)). pose proof (qq_vg 1 ltac:(lia)). pose proof (qq_vg 2 ltac:(lia)). eapply vg_eq; [| |unfold n2; vgt]; [ring|six]. Qed.
Definition ff (y : vec) : R := 2 * / ww y - 2 / 3 * n2 y * / (ww y * ww y * ww y).
Lemma ff_vg : vg ff 2 O6.
Proof.
  pose proof ww_vg as W. pose proof n2_vg as N. pose proof (vg_inv _ _ _ R1_neq_R0 W) as I.
  assert (W3 : vg (fun y => ww y * ww y * ww y) 1 O6) by (eapply vg_eq; [| |vgt]; [ring|six]).
  pose proof (vg_inv _ _ _ R1_neq_R0 W3) as I3. eapply vg_eq; [| |unfold ff; vgt]; [field|six].
Qed.
Definition om (i : nat) (y : vec) : R := ff y * qq i y.
Lemma om_vg i : (i < 3)%nat -> vg (om i) 0 (unit_row 6 (3 + i)).
Proof.
  intros Hi. eapply vg_eq; [| |unfold om; eapply vg_mul; [exact ff_vg|now apply qq_vg]]; [ring|].
  destruct i as [|[|[|i]]]; [| | |lia]; six.
Qed.

Definition QQ (y : vec) : quat := mkQ (ww y) (qq 0 y) (qq 1 y) (qq 2 y).
Definition PP (y : vec) : v3 := mkV (nth 0 y 0) (nth 1 y 0) (nth 2 y 0).
Definition OM (y : vec) : v3 := mkV (om 0 y) (om 1 y) (om 2 y).
Definition TT (a : v3) (y : vec) : v3 := v3_add (q_app (QQ y) (PP y)) a.
Definition GG (a : v3) (y : vec) : vec :=
  v3_list (v3_add (v3_sub (TT a y) (v3_scale (1 / 2) (cross (OM y) (TT a y)))) (v3_scale (1 / 12) (cross (OM y) (cross (OM y) (TT a y))))) ++ v3_list (OM y).
Lemma app_vg : vg (fun y => vx (q_app (QQ y) (PP y))) 0 (unit_row 6 0) /\ vg (fun y => vy (q_app (QQ y) (PP y))) 0 (unit_row 6 1) /\ vg (fun y => vz (q_app (QQ y) (PP y))) 0 (unit_row 6 2).
Proof.
  pose proof ww_vg. pose proof (qq_vg 0 ltac:(lia)). pose proof (qq_vg 1 ltac:(lia)). pose proof (qq_vg 2 ltac:(lia)).
  pose proof (vg_coord 0 ltac:(lia)). pose proof (vg_coord 1 ltac:(lia)). pose proof (vg_coord 2 ltac:(lia)).
  unfold q_app, q_im, q_mul, q_conj, q_pure, QQ, PP. cbn [qw qx qy qz vx vy vz].
  split; [|split]; (eapply vg_eq; [| |vgt]); [ring|six|ring|six|ring|six].
Qed.
Definition log_rows (a : v3) : mat :=
  [[1; 0; 0; 0; - (vz a / 2); vy a / 2]; [0; 1; 0; vz a / 2; 0; - (vx a / 2)]; [0; 0; 1; - (vy a / 2); vx a / 2; 0]; [0; 0; 0; 1; 0; 0]; [0; 0; 0; 0; 1; 0]; [0; 0; 0; 0; 0; 1]].
Lemma GG_jac a : has_jacobian (GG a) O6 (log_rows a).
Proof.
  destruct app_vg as (X & Y & Z). pose proof (om_vg 0 ltac:(lia)) as A. pose proof (om_vg 1 ltac:(lia)) as B. pose proof (om_vg 2 ltac:(lia)) as C.
  assert (TX : vg (fun y => vx (TT a y)) (vx a) (unit_row 6 0)) by (eapply vg_eq; [| |unfold TT, v3_add; cbn [vx]; vgt]; [ring|six]).
  assert (TY : vg (fun y => vy (TT a y)) (vy a) (unit_row 6 1)) by (eapply vg_eq; [| |unfold TT, v3_add; cbn [vy]; vgt]; [ring|six]).
  assert (TZ : vg (fun y => vz (TT a y)) (vz a) (unit_row 6 2)) by (eapply vg_eq; [| |unfold TT, v3_add; cbn [vz]; vgt]; [ring|six]).
  intros i Hi. cbn in Hi. unfold GG, v3_list, v3_add, v3_sub, v3_scale, cross, OM.
  do 6 (destruct i as [|i]; [cbn [nth app vx vy vz log_rows]; lazymatch goal with |- has_gradient ?F _ ?g => cut (exists c, vg F c g); [intros (c & _ & _ & K); exact K|] end;
    eexists; (eapply vg_eq; [reflexivity| |vgt]); six|]). lia.
Qed.
(** Near 0 all functions use their Taylor expansions. *)
Lemma near_log eps a y : 0 < eps -> List.length y = 6%nat -> size (vsub y O6) < Rmin 1 eps / 4 ->
  exists e, se3_exp eps y = Ok e /\ se3_log eps (se3_mul (mkS q_one a) e) = GG a y.
Proof.
  intros He Ly Hs. do 6 (destruct y as [|? y]; [discriminate|]). destruct y; [|discriminate].
  set (y := [r; r0; r1; r2; r3; r4]) in *.
  assert (T0 : 0 <= t2 y) by (unfold t2; cbn; nra).
  assert (S : Rabs r2 + Rabs r3 + Rabs r4 <= size (vsub y O6)).
  { unfold y, size, vsub, vmap2, O6. cbn. rewrite !Rminus_0_r. pose proof (Rabs_pos r). pose proof (Rabs_pos r0). pose proof (Rabs_pos r1). lra. }
  pose proof (Rmin_l 1 eps) as M1. pose proof (Rmin_r 1 eps) as M2.
  set (s := Rabs r2 + Rabs r3 + Rabs r4) in *.
  pose proof (Rabs_pos r2) as P2. pose proof (Rabs_pos r3) as P3. pose proof (Rabs_pos r4) as P4.
  assert (T1 : t2 y <= s * s).
  { unfold t2, y. cbn [nth].
    assert (A2 : r2 * r2 = Rabs r2 * Rabs r2) by (apply Rsqr_abs). assert (A3 : r3 * r3 = Rabs r3 * Rabs r3) by (apply Rsqr_abs). assert (A4 : r4 * r4 = Rabs r4 * Rabs r4) by (apply Rsqr_abs).
    rewrite A2, A3, A4. unfold s. nra. }
  assert (S0 : 0 <= s) by (unfold s; lra).
  assert (S1 : s < 1 / 4) by lra. assert (S2 : s < eps / 4) by lra.
  assert (T2 : t2 y <= s / 4) by nra. assert (T3 : t2 y < eps / 16) by lra. assert (T4 : t2 y < 1 / 16) by lra.
  assert (K : 0 <= kk y <= 1).
  { unfold kk. pose proof (Rmult_le_pos _ _ T0 T0). assert (t2 y * t2 y <= 1 / 16 * (1 / 16)) by (apply Rmult_le_compat; lra). split; lra. }
  assert (W : 9 / 10 <= ww y <= 11 / 10).
  { unfold ww. pose proof (Rmult_le_pos _ _ T0 T0). assert (t2 y * t2 y <= 1 / 16 * (1 / 16)) by (apply Rmult_le_compat; lra). split; lra. }
  assert (N : n2 y = kk y * kk y * t2 y) by (unfold n2, qq, t2; cbn [Nat.add]; ring).
  assert (N0 : 0 <= n2 y) by (unfold n2; nra).
  assert (K2 : kk y * kk y <= 1) by nra.
  assert (N1 : n2 y <= t2 y) by (rewrite N; nra).
  assert (E : se3_exp eps y = Ok (mkS (QQ y) (q_app (QQ y) (PP y)))).
  { unfold se3_exp, y. fold y. cbv zeta. unfold v_mat. cbv zeta.
    assert (T : v3_norm2 (mkV r2 r3 r4) = t2 y) by (unfold v3_norm2, v3_dot, t2, y; cbn; ring).
    assert (Q : so3_exp eps (mkV r2 r3 r4) = QQ y).
    { unfold so3_exp. cbv zeta. rewrite T. destruct (Rlt_dec (t2 y) eps); [|lra]. reflexivity. }
    rewrite T, Q. destruct (Rlt_dec (t2 y) eps); [|lra]. reflexivity. }
  eexists. split; [exact E|].
  unfold se3_log, se3_mul. cbn [s_rot s_pos]. cbv zeta. rewrite ConfFacts.q_mul_one_l, ConfFacts.q_app_one.
  assert (F : so3_factor eps (QQ y) = ff y).
  { unfold so3_factor. cbv zeta. assert (V : v3_norm2 (q_im (QQ y)) = n2 y) by reflexivity. rewrite V. destruct (Rlt_dec (n2 y) eps); [reflexivity|lra]. }
  assert (O : so3_log eps (QQ y) = OM y) by (unfold so3_log; rewrite F; reflexivity).
  rewrite O. unfold v_inv. cbv zeta.
  assert (FF : -3 <= ff y <= 3).
  { unfold ff. assert (I : / ww y <= 10 / 9) by (replace (10 / 9) with (/ (9 / 10)) by field; apply Rinv_le_contravar; lra).
    assert (I0 : 0 < / ww y) by (apply Rinv_0_lt_compat; lra).
    assert (I3 : / (ww y * ww y * ww y) = / ww y * / ww y * / ww y) by (field; lra). rewrite I3.
    assert (J : 0 <= / ww y * / ww y * / ww y <= 10 / 9 * (10 / 9) * (10 / 9)).
    { split; [apply Rmult_le_pos; [apply Rmult_le_pos|]; lra|]. apply Rmult_le_compat; try lra; [apply Rmult_le_pos; lra|]. apply Rmult_le_compat; lra. }
    assert (J2 : 0 <= n2 y * (/ ww y * / ww y * / ww y) <= 1 / 16 * (10 / 9 * (10 / 9) * (10 / 9))).
    { split; [apply Rmult_le_pos; lra|]. apply Rmult_le_compat; lra. }
    split; lra. }
  assert (NN : v3_norm2 (OM y) = ff y * ff y * n2 y) by (unfold v3_norm2, v3_dot, OM, om, n2; cbn; ring).
  assert (F9 : ff y * ff y <= 9). { nra. }
  rewrite NN. destruct (Rlt_dec (ff y * ff y * n2 y) eps) as [_|H]; [reflexivity|]. exfalso. apply H. nra.
Qed.
Lemma log_jacobian D eps a : sound_jac D -> 0 < eps ->
  D (fun tau => do e <- se3_exp eps tau; Ok (se3_log eps (se3_mul (mkS q_one a) e))) O6 = Ok (log_rows a).
Proof.
  intros HD He. set (f := fun tau => do e <- se3_exp eps tau; Ok (se3_log eps (se3_mul (mkS q_one a) e))).
  apply (HD f (fun y => match f y with Ok z => z | Err _ => [] end) O6 6%nat (log_rows a)).
  - intros y Hy. do 6 (destruct y as [|? y]; [discriminate|]). destruct y; [|discriminate]. unfold f, se3_exp. cbn [bind]. split; reflexivity.
  - split; [reflexivity|]. repeat constructor.
  - intros i Hi. assert (R : 0 < Rmin 1 eps / 4) by (assert (0 < Rmin 1 eps) by (apply Rmin_glb_lt; lra); lra).
    apply (grad_local (fun y => nth i (GG a y) 0) _ _ _ _ R (GG_jac a i Hi)). intros y Ly Hs. destruct (near_log eps a y He Ly Hs) as (e & E1 & E2). unfold f. rewrite E1. cbn [bind]. now rewrite E2.
Qed.
