(** The derivative of the frame error along a motion that starts unrotated. *)
From Coq Require Import Lia.
From Verif Require Import Base Lin Mjx Rot SpecConf ConfFacts ConfFacts4 ValueFacts4.
Open Scope R_scope.

(** Value and derivative at 0. *)
Definition dv (F : R -> R) (c l : R) : Prop := F 0 = c /\ derivative_at_0 F l.
Lemma dv_const c : dv (fun _ => c) c 0. Proof. split; [reflexivity|]. apply derivable_pt_lim_const. Qed.
Lemma dv_add F G c d k l : dv F c k -> dv G d l -> dv (fun t => F t + G t) (c + d) (k + l).
Proof. intros (A & B) (C & D). split; [congruence|]. exact (derivable_pt_lim_plus F G 0 k l B D). Qed.
Lemma dv_sub F G c d k l : dv F c k -> dv G d l -> dv (fun t => F t - G t) (c - d) (k - l).
Proof. intros (A & B) (C & D). split; [congruence|]. exact (derivable_pt_lim_minus F G 0 k l B D). Qed.
Lemma dv_mul F G c d k l : dv F c k -> dv G d l -> dv (fun t => F t * G t) (c * d) (k * d + c * l).
Proof. intros (A & B) (C & D). split; [congruence|]. rewrite <- A, <- C. exact (derivable_pt_lim_mult F G 0 k l B D). Qed.
Lemma dv_opp F c k : dv F c k -> dv (fun t => - F t) (- c) (- k).
Proof. intros (A & B). split; [congruence|]. exact (derivable_pt_lim_opp F 0 k B). Qed.
Lemma dv_inv F c k : c <> 0 -> dv F c k -> dv (fun t => / F t) (/ c) (- k / (c * c)).
Proof.
  intros N (A & B). split; [congruence|]. pose proof (derivable_pt_lim_div (fct_cte 1) F 0 0 k (derivable_pt_lim_const 1 0) B ltac:(congruence)) as H.
  eapply derivative_ext; [|unfold derivative_at_0; replace (- k / (c * c)) with ((0 * F 0 - k * fct_cte 1 0) / Rsqr (F 0)); [exact H|]].
  - intros t. unfold div_fct, fct_cte. unfold Rdiv. ring.
  - rewrite A. unfold fct_cte, Rsqr. field. exact N.
Qed.
Lemma dv_sqrt F c k : 0 < c -> dv F c k -> dv (fun t => sqrt (F t)) (sqrt c) (/ (2 * sqrt c) * k).
Proof. intros N (A & B). split; [congruence|]. apply (derivable_pt_lim_comp F sqrt 0); [exact B|]. rewrite A. now apply derivable_pt_lim_sqrt. Qed.
Lemma dv_eq F c c' l l' : c = c' -> l = l' -> dv F c l -> dv F c' l'. Proof. now intros -> ->. Qed.
(** Close to 0, for properties of one function's value, and for several of them. *)
Definition nearby (P : R -> Prop) : Prop := exists r, 0 < r /\ forall t, Rabs t < r -> P t.
Lemma nearby_and P Q : nearby P -> nearby Q -> nearby (fun t => P t /\ Q t).
Proof.
  intros (r & Hr & A) (s & Hs & B). exists (Rmin r s). split; [now apply Rmin_glb_lt|]. intros t Ht. pose proof (Rmin_l r s). pose proof (Rmin_r r s). split; [apply A|apply B]; lra.
Qed.
Lemma nearby_imp (P Q : R -> Prop) : (forall t, P t -> Q t) -> nearby P -> nearby Q.
Proof. intros H (r & Hr & A). exists r. split; [exact Hr|]. intros t Ht. apply H, A, Ht. Qed.
Lemma dv_near F c l e : 0 < e -> dv F c l -> nearby (fun t => Rabs (F t - c) < e).
Proof.
  intros He (A & B). assert (C : continuity_pt F 0) by (apply derivable_continuous_pt; exists l; exact B). destruct (C e He) as (r & Hr & H). exists r. split; [exact Hr|]. intros t Ht.
  destruct (Req_dec 0 t) as [<-|N]; [rewrite A, Rminus_diag_eq, Rabs_R0 by reflexivity; exact He|].
  rewrite <- A. apply H. split; [split; [exact I|exact N]|]. unfold dist, R_met, R_dist. cbn. now rewrite Rminus_0_r.
Qed.
Lemma dv_local F G c l : nearby (fun t => F t = G t) -> dv F c l -> dv G c l.
Proof.
  intros (r & Hr & E) (A & B). split; [rewrite <- E; [exact A|now rewrite Rabs_R0]|]. intros e He. destruct (B e He) as (d & H).
  assert (M : 0 < Rmin d r) by (apply Rmin_glb_lt; [apply cond_pos|exact Hr]). exists (mkposreal _ M). intros h N Hh. cbn in Hh.
  pose proof (Rmin_l d r). pose proof (Rmin_r d r). rewrite <- !E; [apply H; [exact N|lra]|rewrite Rabs_R0; exact Hr|rewrite Rplus_0_l; lra].
Qed.
Ltac dvt :=
  lazymatch goal with
  | |- dv (fun t => _ + _) _ _ => first [apply dv_const | eapply dv_add; dvt]
  | |- dv (fun t => _ - _) _ _ => first [apply dv_const | eapply dv_sub; dvt]
  | |- dv (fun t => _ * _) _ _ => first [apply dv_const | eapply dv_mul; dvt]
  | |- dv (fun t => - _) _ _ => first [apply dv_const | eapply dv_opp; dvt]
  | |- _ => first [eassumption | apply dv_const]
  end.

Section Motion.
  Variables (eps : R) (M : R -> m3) (x : R -> v3) (p lin om : v3).
  Hypothesis He : 0 < eps.
  Hypothesis D00 : dv (fun t => m00 (M t)) 1 0.
  Hypothesis D01 : dv (fun t => m01 (M t)) 0 (- vz om).
  Hypothesis D02 : dv (fun t => m02 (M t)) 0 (vy om).
  Hypothesis D10 : dv (fun t => m10 (M t)) 0 (vz om).
  Hypothesis D11 : dv (fun t => m11 (M t)) 1 0.
  Hypothesis D12 : dv (fun t => m12 (M t)) 0 (- vx om).
  Hypothesis D20 : dv (fun t => m20 (M t)) 0 (- vy om).
  Hypothesis D21 : dv (fun t => m21 (M t)) 0 (vx om).
  Hypothesis D22 : dv (fun t => m22 (M t)) 1 0.
  Variable x0 : v3.
  Hypothesis Dx : dv (fun t => vx (x t)) (vx x0) (vx lin).
  Hypothesis Dy : dv (fun t => vy (x t)) (vy x0) (vy lin).
  Hypothesis Dz : dv (fun t => vz (x t)) (vz x0) (vz lin).

  Definition tra (t : R) : R := 1 + m00 (M t) + m11 (M t) + m22 (M t).
  Definition sc (t : R) : R := 1 / 2 * / sqrt (tra t).
  Definition Q0 (t : R) : quat := mkQ (sc t * tra t) (sc t * (m21 (M t) - m12 (M t))) (sc t * (m02 (M t) - m20 (M t))) (sc t * (m10 (M t) - m01 (M t))).
  Lemma sqrt4 : sqrt 4 = 2. Proof. replace 4 with (2 * 2) by ring. rewrite sqrt_square; lra. Qed.
  Lemma tra_dv : dv tra 4 0. Proof. eapply dv_eq; [| |unfold tra; dvt]; ring. Qed.
  Lemma sc_dv : dv sc (1 / 4) 0.
  Proof.
    pose proof (dv_sqrt tra 4 0 ltac:(lra) tra_dv) as S. rewrite sqrt4 in S. pose proof (dv_inv _ 2 _ ltac:(lra) S) as I.
    eapply dv_eq; [| |unfold sc; dvt]; field.
  Qed.
  Lemma Q0_dv : dv (fun t => qw (Q0 t)) 1 0 /\ dv (fun t => qx (Q0 t)) 0 (vx om / 2) /\ dv (fun t => qy (Q0 t)) 0 (vy om / 2) /\ dv (fun t => qz (Q0 t)) 0 (vz om / 2).
  Proof. pose proof tra_dv. pose proof sc_dv. unfold Q0. cbn [qw qx qy qz]. split; [|split; [|split]]; (eapply dv_eq; [| |dvt]); field. Qed.
  Lemma Q0_near : nearby (fun t => from_matrix (M t) = Q0 t).
  Proof.
    eapply nearby_imp; [|apply nearby_and; [exact (dv_near _ _ _ (1 / 2) ltac:(lra) D22)|apply nearby_and; [exact (dv_near _ _ _ (1 / 2) ltac:(lra) D00)|exact (dv_near _ _ _ (1 / 2) ltac:(lra) D11)]]].
    cbv beta. intros t (A & B & C). apply Rabs_def2 in A, B, C. unfold from_matrix. destruct (Rlt_dec (m22 (M t)) 0); [lra|]. destruct (Rlt_dec (m00 (M t)) (- m11 (M t))); [lra|]. reflexivity.
  Qed.
  Definition nn (t : R) : R := v3_norm2 (q_im (q_conj (Q0 t))).
  Definition fac (t : R) : R := 2 * / qw (Q0 t) - 2 / 3 * nn t * / (qw (Q0 t) * qw (Q0 t) * qw (Q0 t)).
  Definition ang (t : R) : v3 := v3_scale (fac t) (q_im (q_conj (Q0 t))).
  Lemma nn_dv : dv nn 0 0.
  Proof. destruct Q0_dv as (W & X & Y & Z). unfold nn, v3_norm2, v3_dot, q_im, q_conj. cbn [vx vy vz qx qy qz]. eapply dv_eq; [| |dvt]; field. Qed.
  Lemma fac_dv : dv fac 2 0.
  Proof.
    destruct Q0_dv as (W & _). pose proof nn_dv. pose proof (dv_inv _ _ _ R1_neq_R0 W) as I.
    assert (W3 : dv (fun t => qw (Q0 t) * qw (Q0 t) * qw (Q0 t)) 1 0) by (eapply dv_eq; [| |dvt]; ring).
    pose proof (dv_inv _ _ _ R1_neq_R0 W3) as I3. eapply dv_eq; [| |unfold fac; dvt]; field.
  Qed.
  Lemma ang_dv : dv (fun t => vx (ang t)) 0 (- vx om) /\ dv (fun t => vy (ang t)) 0 (- vy om) /\ dv (fun t => vz (ang t)) 0 (- vz om).
  Proof. destruct Q0_dv as (W & X & Y & Z). pose proof fac_dv. unfold ang, v3_scale, q_im, q_conj. cbn [vx vy vz qx qy qz]. split; [|split]; (eapply dv_eq; [| |dvt]); field. Qed.
  Definition off (t : R) : v3 := q_app (q_conj (Q0 t)) (v3_sub p (x t)).
  Definition gap : v3 := v3_sub p x0.
  Lemma off_dv : dv (fun t => vx (off t)) (vx gap) (- vx lin - vx (cross om gap)) /\ dv (fun t => vy (off t)) (vy gap) (- vy lin - vy (cross om gap)) /\ dv (fun t => vz (off t)) (vz gap) (- vz lin - vz (cross om gap)).
  Proof.
    destruct Q0_dv as (W & X & Y & Z). unfold off, gap, v3_sub, cross, q_app, q_mul, q_pure, q_im, q_conj. cbn [vx vy vz qw qx qy qz].
    split; [|split]; (eapply dv_eq; [| |dvt]); field.
  Qed.
  Definition err (t : R) : list R :=
    v3_list (v3_add (v3_sub (off t) (v3_scale (1 / 2) (cross (ang t) (off t)))) (v3_scale (1 / 12) (cross (ang t) (cross (ang t) (off t))))) ++ v3_list (ang t).
  Definition err' : list R := v3_list (v3_sub (v3_neg lin) (v3_scale (1 / 2) (cross om gap))) ++ v3_list (v3_neg om).
  Lemma err_dv k : (k < 6)%nat -> derivative_at_0 (fun t => nth k (err t) 0) (nth k err' 0).
  Proof.
    intros Hk. destruct off_dv as (X & Y & Z). destruct ang_dv as (A & B & C).
    do 6 (destruct k as [|k]; [unfold err, err', v3_list, v3_add, v3_sub, v3_scale, v3_neg, cross in *; cbn [nth app vx vy vz] in *;
      lazymatch goal with |- derivative_at_0 ?F ?g => cut (exists c, dv F c g); [intros (c & _ & K); exact K|] end; eexists; (eapply dv_eq; [reflexivity| |dvt]); field|]). lia.
  Qed.
  Lemma err_near : nearby (fun t => frame_error eps (M t) (x t) q_one p = err t).
  Proof.
    assert (TH : dv (fun t => v3_norm2 (ang t)) 0 0) by (destruct ang_dv as (A & B & C); unfold v3_norm2, v3_dot; eapply dv_eq; [| |dvt]; ring).
    eapply nearby_imp; [|apply nearby_and; [exact Q0_near|apply nearby_and; [exact (dv_near _ _ _ eps He nn_dv)|exact (dv_near _ _ _ eps He TH)]]].
    cbv beta. intros t (E & A & B). apply Rabs_def2 in A, B. unfold frame_error. rewrite E. unfold se3_log. cbv zeta.
    assert (R : s_rot (se3_mul (se3_inv (mkS (Q0 t) (x t))) (mkS q_one p)) = q_conj (Q0 t)) by (cbn [se3_mul se3_inv s_rot]; apply q_mul_one_r).
    assert (F : so3_log eps (q_conj (Q0 t)) = ang t).
    { unfold so3_log, ang. f_equal. unfold so3_factor. cbv zeta. change (v3_norm2 (q_im (q_conj (Q0 t)))) with (nn t). destruct (Rlt_dec (nn t) eps); [reflexivity|lra]. }
    rewrite R, F. rewrite se3_rel_pos. cbn [s_rot s_pos]. change (q_app (q_conj (Q0 t)) (v3_sub p (x t))) with (off t).
    unfold v_inv. cbv zeta. destruct (Rlt_dec (v3_norm2 (ang t)) eps); [reflexivity|lra].
  Qed.
  Lemma frame_error_rate k : (k < 6)%nat -> derivative_at_0 (fun t => nth k (frame_error eps (M t) (x t) q_one p) 0) (nth k err' 0).
  Proof.
    intros Hk. destruct (dv_local (fun t => nth k (err t) 0) (fun t => nth k (frame_error eps (M t) (x t) q_one p) 0) (nth k (err 0) 0) (nth k err' 0)) as [_ H]; [|split; [reflexivity|now apply err_dv]|exact H].
    eapply nearby_imp; [|exact err_near]. intros t E. cbv beta in *. now rewrite E.
  Qed.
End Motion.
