(** Lemmas behind C95: posture tasks under gradient descent. *)
From Verif Require Import Base Lin LinFacts Mjx Typing Component Problem SpecComponent SpecJoint SpecHistory SpecProblem SpecMotion SpecFit SpecTrace SpecSetup JaxComponents GlobalIK SpecQP SpecGlobal SpecGLoop.
From Verif Require Import JointFacts Conf MotionFacts MotionFacts2 GlobalFacts GlobalFacts2.
From Coq Require Import Sorted.
Open Scope R_scope.

(** The squared distance of listed entries [as_] of [x] from [t], and its partial derivatives. *)
Fixpoint apart (as_ : list nat) (g t x : vec) : R :=
  match as_, g, t with a :: as', b :: g', c :: t' => b * square (nth a x 0 - c) + apart as' g' t' x | _, _, _ => 0 end.
Fixpoint slope (as_ : list nat) (g t x : vec) (i : nat) : R :=
  match as_, g, t with a :: as', b :: g', c :: t' => (if Nat.eqb a i then 2 * b * (nth a x 0 - c) else 0) + slope as' g' t' x i | _, _, _ => 0 end.
Lemma replace_same {A} i (a d : A) l : (i < List.length l)%nat -> nth i (replace_nth i a l) d = a.
Proof. revert l. induction i; intros [|b l] H; cbn in *; try lia; [reflexivity|]. apply IHi. lia. Qed.
Lemma replace_other {A} i k (a d : A) l : k <> i -> nth k (replace_nth i a l) d = nth k l d.
Proof. revert i l. induction k; intros [|i] [|b l] H; cbn; try reflexivity; [now elim H|]. apply IHk. congruence. Qed.
Lemma apart_slope as_ g t x i : (i < List.length x)%nat -> partial_derivative (apart as_ g t) x i (slope as_ g t x i).
Proof.
  intros Hi. unfold partial_derivative. revert g t. induction as_ as [|a as_ IH]; intros g t; cbn [apart slope]; [apply derivable_pt_lim_const|].
  destruct g as [|b g]; [apply derivable_pt_lim_const|]. destruct t as [|c t]; [apply derivable_pt_lim_const|].
  apply (derivable_pt_lim_plus (fun y => b * square (nth a (replace_nth i y x) 0 - c)) (fun y => apart as_ g t (replace_nth i y x))); [|apply IH].
  destruct (Nat.eqb_spec a i) as [->|N].
  - apply (derive_local _ (fun y => b * ((y - c) * (y - c)))); [|exists 1; split; [lra|]; intros y _; now rewrite replace_same].
    replace (2 * b * (nth i x 0 - c)) with (b * ((1 - 0) * (nth i x 0 - c) + (nth i x 0 - c) * (1 - 0))) by ring.
    apply (derivable_pt_lim_scal (fun y => (y - c) * (y - c))). apply (derivable_pt_lim_mult (fun y => y - c) (fun y => y - c)); apply (derivable_pt_lim_minus (fun y => y) (fun _ => c)); first [apply derivable_pt_lim_id|apply derivable_pt_lim_const].
  - apply (derive_local _ (fun _ => b * square (nth a x 0 - c))); [apply derivable_pt_lim_const|]. exists 1. split; [lra|]. intros y _. now rewrite replace_other.
Qed.
Lemma slope_other as_ g t x i : ~ In i as_ -> slope as_ g t x i = 0.
Proof.
  revert g t. induction as_ as [|a as_ IH]; intros [|b g] [|c t] H; cbn; try reflexivity. destruct (Nat.eqb_spec a i) as [->|N]; [elim H; now left|]. rewrite IH; [ring|]. intros K. apply H. now right.
Qed.
Lemma slope_at as_ g t x k a : NoDup as_ -> nth_error as_ k = Some a -> List.length g = List.length as_ -> List.length t = List.length as_ -> slope as_ g t x a = 2 * nth k g 0 * (nth a x 0 - nth k t 0).
Proof.
  revert g t k. induction as_ as [|b as_ IH]; intros [|u g] [|c t] [|k] Nd Hk Lg Lt; cbn in *; try discriminate; inversion Nd as [|? ? N1 N2]; subst.
  - injection Hk as ->. rewrite Nat.eqb_refl, slope_other by assumption. ring.
  - destruct (Nat.eqb_spec b a) as [->|N]; [elim N1; eapply nth_error_In; eauto|]. rewrite (IH g t k); auto. ring.
Qed.
Lemma wsum_apart m fm g t x : wsum g (map square (vsub (sel_pos m fm x) t)) = apart (map (qpos_of m) (selected m fm)) g t x.
Proof.
  unfold sel_pos. generalize (selected m fm). intros l. revert g t. induction l as [|a l IH]; intros g t; [destruct g; reflexivity|].
  destruct g as [|b g]; [cbn; now destruct t|]. destruct t as [|c t]; [reflexivity|]. cbn [map vsub vmap2 wsum apart combine]. rewrite <- IH. reflexivity.
Qed.

Lemma gsteps_0_inv L grad O m dt pd q st qn : gsteps L grad O m dt pd 0 q st qn -> qn = q.
Proof. intros H. now inversion H. Qed.
Lemma gsteps_S_inv L grad O m dt pd n q st qn : gsteps L grad O m dt pd (S n) q st qn ->
  exists q1 v st1, gsolve L grad O m dt (tvec q) st pd = Ok (q1, v, st1) /\ gsteps L grad O m dt pd n q1 st1 qn.
Proof. intros H. inversion H; subst. eauto. Qed.
Section Posture.
Context (L : lib) (grad : gradient) (m : mjmodel) (pd : jdata) (fm : option (list Z)) (j : jaxc) (t : vec).
Context (Hg : sound_grad grad) (Hk : keeps_scalars L m) (Em : jd_model pd = m) (Ej : j_model j = m) (Ec : comps_of pd = [j]) (Hj : joint_task fm j) (Ht : has_target j t).
Let as_ := map (qpos_of m) (selected m fm).

Lemma posture_loss x : List.length x = m_nq m -> loss_fn L x pd = Ok (apart as_ (j_gain j) t x).
Proof.
  intros Hx. destruct (joint_task_motion fm j t Hj Ht L x (update L m x)) as (J & E & _ & Lt & _ & Lg & _); [now rewrite Ej|rewrite Ej; now apply Hk|]. rewrite Ej in *. cbv zeta in *.
  rewrite (loss_value L x pd [apart as_ (j_gain j) t x]); [cbn; f_equal; ring|]. unfold contributions. rewrite Em, Ec. constructor; [|constructor].
  eexists. split; [exact E|]. split; [now rewrite Lg|]. destruct Ht as (W & lm & qi & X). unfold is_constraint, is_barrier. rewrite X. split; [reflexivity|]. symmetry. apply wsum_apart.
Qed.
Lemma posture_grad x : List.length x = m_nq m -> grad (fun y => loss_fn L y pd) x = Ok (map (slope as_ (j_gain j) t x) (seq 0 (List.length x))).
Proof.
  intros Hx. apply Hg with (F := apart as_ (j_gain j) t); [now rewrite map_length, seq_length|intros y Hy; apply posture_loss; congruence|].
  intros i Hi. rewrite nth_indep with (d' := slope as_ (j_gain j) t x 0%nat) by now rewrite map_length, seq_length.
  rewrite (map_nth (slope as_ (j_gain j) t x)), seq_nth by exact Hi. now apply apart_slope.
Qed.
Lemma nth_add x y i : List.length x = List.length y -> nth i (vadd x y) 0 = nth i x 0 + nth i y 0.
Proof. unfold vadd, vmap2. revert y i. induction x as [|a x IH]; intros [|b y] [|i] H; cbn in *; try discriminate; try ring. apply IH. lia. Qed.
Lemma posture_step r dt x st : List.length x = m_nq m -> exists q' v, gsolve L grad (descent r) m dt (tvec x) st pd = Ok (q', v, st) /\ List.length q' = m_nq m /\
  forall i, (i < m_nq m)%nat -> nth i q' 0 = nth i x 0 - r * slope as_ (j_gain j) t x i.
Proof.
  intros Hx. eexists. eexists. split; [unfold gsolve; cbn [t_shape t_data tvec]; rewrite Hx, Nat.eqb_refl, posture_grad by exact Hx; cbn [bind descent o_update]; reflexivity|].
  set (gr := map (slope as_ (j_gain j) t x) (seq 0 (List.length x))). assert (Lg : List.length gr = List.length x) by (unfold gr; rewrite map_length, seq_length; reflexivity).
  split; [unfold vadd, vmap2, vscale; rewrite map_length, combine_length, map_length, Lg; lia|].
  intros i Hi. rewrite nth_add by (unfold vscale; now rewrite map_length).
  assert (N : nth i gr 0 = slope as_ (j_gain j) t x i).
  { unfold gr. transitivity (nth i (map (slope as_ (j_gain j) t x) (seq 0 (List.length x))) (slope as_ (j_gain j) t x 0%nat)); [apply nth_indep; rewrite map_length, seq_length; lia|]. rewrite (map_nth (slope as_ (j_gain j) t x)), seq_nth by lia. reflexivity. }
  unfold vscale. rewrite <- (Rmult_0_r (- r)) at 2. rewrite (map_nth (Rmult (- r))), N. ring.
Qed.
Lemma posture_steps r dt n : forall q st, List.length q = m_nq m -> exists qn, gsteps L grad (descent r) m dt pd n q st qn.
Proof.
  induction n as [|n IH]; intros q st Hq; [exists q; constructor|]. destruct (posture_step r dt q st Hq) as (q1 & v & E & L1 & _). destruct (IH q1 st L1) as [qn H]. exists qn. econstructor; eassumption.
Qed.
Lemma sorted_nodup l : StronglySorted lt l -> NoDup l.
Proof.
  induction 1 as [|a l H IH F]; constructor; auto. intros K. rewrite Forall_forall in F. specialize (F a K). lia.
Qed.
Lemma posture_after r dt n : forall q st qn, List.length q = m_nq m -> gsteps L grad (descent r) m dt pd n q st qn -> List.length qn = m_nq m /\
  (forall k x, nth_error (selected m fm) k = Some x -> nth (qpos_of m x) qn 0 - nth k t 0 = (1 - 2 * r * nth k (j_gain j) 0) ^ n * (nth (qpos_of m x) q 0 - nth k t 0)) /\
  (forall i, (forall x, In x (selected m fm) -> qpos_of m x <> i) -> nth i qn 0 = nth i q 0).
Proof.
  destruct (joint_task_facts fm j Hj) as (Wj & _ & _ & _ & Lg & _). rewrite Ej in *.
  induction n as [|n IH]; intros q st qn Hq H; [apply gsteps_0_inv in H; subst qn|apply gsteps_S_inv in H as (q1 & v & st1 & H1 & H2)].
  - split; [exact Hq|]. split; [intros; cbn; ring|auto].
  - destruct (posture_step r dt q st Hq) as (q' & v' & E & L1 & S1). rewrite H1 in E. injection E as -> -> ->.
    destruct (joint_task_motion fm j t Hj Ht L q (update L m q)) as (_ & _ & _ & Lt & _); [now rewrite Ej|rewrite Ej; now apply Hk|]. rewrite Ej in Lt.
    destruct (IH q' st qn L1 H2) as (I1 & I2 & I3). split; [exact I1|]. split.
    + intros k x Hx. rewrite (I2 k x Hx). assert (Hlt : (qpos_of m x < m_nq m)%nat) by (apply (selected_bounds m fm x Wj); eapply nth_error_In; eauto).
      rewrite (S1 _ Hlt). rewrite (slope_at as_ (j_gain j) t q k (qpos_of m x)); [cbn [pow]; ring| | | |].
      * apply sorted_nodup, selected_qpos_sorted, Wj.
      * unfold as_. now rewrite nth_error_map, Hx.
      * unfold as_. now rewrite map_length.
      * unfold as_. now rewrite map_length.
    + intros i Hi. rewrite (I3 i Hi). destruct (Nat.lt_ge_cases i (m_nq m)) as [Hlt|Hge]; [|rewrite !nth_overflow by lia; reflexivity].
      rewrite (S1 i Hlt), slope_other; [ring|]. unfold as_. rewrite in_map_iff. intros (x & Hx & Ix). now apply (Hi x).
Qed.
End Posture.
