(** Solvers with a tolerance: what a small residual means, and what it does to barriers. *)
From Verif Require Import Base Lin LinFacts Mjx Typing Component Problem SpecComponent ComponentFacts ComponentFacts2 SpecJoint SpecHistory JointFacts BindFacts BindFacts3 SpecProblem SpecShape SpecFit SpecValue Rot Conf FrameJac Collide JaxComponents LocalIK SpecQP QPFacts QPThms QPThms2 QPThms3 QPThms4 SpecMotion MotionFacts MotionFacts2 SpecLoop LoopFacts FitThms SpecSolve SolveFacts SolveThms SpecDescent DescentFacts2 DescentThms2 SpecClosed SpecTol.
Open Scope R_scope.

(** ** Residuals *)
Lemma vle_by_app eps a b c e : List.length a = List.length c -> vle_by eps (a ++ b) (c ++ e) <-> vle_by eps a c /\ vle_by eps b e.
Proof. intros H. split; [|intros [H1 H2]; now apply Forall2_app]. intros F. now apply Forall2_app_inv_len in F. Qed.
Lemma close_by_app eps a b c e : List.length a = List.length c -> close_by eps (a ++ b) (c ++ e) <-> close_by eps a c /\ close_by eps b e.
Proof. intros H. split; [|intros [H1 H2]; now apply Forall2_app]. intros F. now apply Forall2_app_inv_len in F. Qed.
Lemma vle_by_length eps a b : vle_by eps a b -> List.length a = List.length b.
Proof. induction 1; cbn; congruence. Qed.
Lemma vle_by_neg eps a b : vle_by eps (vneg a) b <-> vle_by eps (vneg b) a.
Proof.
  unfold vle_by, vneg. split; revert b; induction a as [|x a IH]; intros [|y b] H; inversion H; subst; constructor; try lra; auto.
Qed.
Lemma barrier_rows_by eps L nv d v js Js es : data_of L d js Js es -> Forall (well_shaped L nv d) js ->
  vle_by eps (mv (List.concat (map mneg Js)) v) (List.concat (map (fun p => gained (fst p) (snd p)) (combine js es))) <-> Forall (cbf_by eps L d v) js.
Proof.
  intros [D1 D2] Hs. revert es D2 Hs. induction D1 as [|j J js Js HJ D1 IH]; intros es D2 Hs; inversion D2 as [|? e ? es' He D2']; subst.
  { split; constructor. }
  inversion Hs as [|? ? W1 W2]; subst. destruct (W1 J e HJ He) as [[S1 S2] S3]. cbn [map combine List.concat fst snd]. rewrite mv_cat.
  rewrite vle_by_app by (rewrite mv_mneg, vneg_length, mv_length, gained_length; auto). rewrite (IH es' D2' W2). clear IH.
  assert (E : vle_by eps (mv (mneg J) v) (gained j e) <-> cbf_by eps L d v j).
  { rewrite mv_mneg, vle_by_neg. unfold cbf_by. split; [|intros H; now apply H].
    intros H J' e' HJ' He'. rewrite HJ in HJ'. rewrite He in He'. injection HJ' as <-. injection He' as <-. exact H. }
  rewrite E. split; [intros [A B]; now constructor|intros H; inversion H; auto].
Qed.
Lemma hard_rows_by eps L nv d v js Js es : data_of L d js Js es -> Forall (well_shaped L nv d) js ->
  close_by eps (mv (List.concat Js) v) (List.concat (map (fun p => vneg (gained (fst p) (snd p))) (combine js es))) <-> Forall (holds_by eps L d v) js.
Proof.
  intros [D1 D2] Hs. revert es D2 Hs. induction D1 as [|j J js Js HJ D1 IH]; intros es D2 Hs; inversion D2 as [|? e ? es' He D2']; subst.
  { split; constructor. }
  inversion Hs as [|? ? W1 W2]; subst. destruct (W1 J e HJ He) as [[S1 S2] S3]. cbn [map combine List.concat fst snd]. rewrite mv_cat.
  assert (E : close_by eps (mv J v) (vneg (gained j e)) <-> holds_by eps L d v j).
  { unfold holds_by. split; [|intros H; now apply H].
    intros H J' e' HJ' He'. rewrite HJ in HJ'. rewrite He in He'. injection HJ' as <-. injection He' as <-. exact H. }
  rewrite close_by_app by (rewrite mv_length, vneg_length, gained_length; auto). rewrite (IH es' D2' W2), E. split; [intros [A B]; now constructor|intros H; inversion H; auto].
Qed.
Section Assembled.
Context (L : lib) (sm : mjmodel) (pd : jdata) (d : mjdata) (Q : qp).
Context (Hnv : m_nv sm = m_nv (jd_model pd)) (HQ : assemble L sm pd d = Ok Q).
Context (Hs : Forall (well_shaped L (m_nv (jd_model pd)) d) (comps_of pd)).
Notation nv := (m_nv (jd_model pd)).
Lemma shaped_filter f : Forall (well_shaped L nv d) (filter f (comps_of pd)).
Proof. apply Forall_forall. intros j Hj. rewrite Forall_forall in Hs. apply Hs. apply filter_In in Hj. tauto. Qed.
(** A velocity violates no row by more than eps iff it meets every documented condition up to eps. *)
Lemma residual_nearly eps v : List.length (jd_vmin pd) = nv -> List.length (jd_vmax pd) = nv -> List.length v = nv -> (residual eps Q v <-> nearly eps L d pd v).
Proof.
  intros H1 H2 Hv. unfold residual. destruct (ineq_blocks L sm pd d Q Hnv HQ Hs) as (Js & es & D & EG & Eh). rewrite EG, Eh, !mv_cat, mv_mneg, mv_eye by exact Hv.
  rewrite !vle_by_app by (rewrite ?vneg_length; lia). rewrite (barrier_rows_by eps L nv d v _ _ _ D (shaped_filter _)).
  assert (E2 : match qp_eq Q with None => True | Some (A, b) => close_by eps (mv A v) b end <-> Forall (holds_by eps L d v) (filter is_hard (comps_of pd))).
  { destruct (eq_blocks L sm pd d Q Hnv HQ Hs) as (Js' & es' & D' & ->). pose proof (hard_rows_by eps L nv d v _ _ _ D' (shaped_filter _)) as E. destruct (filter is_hard (comps_of pd)) eqn:EF; [|exact E]. split; [constructor|exact (fun _ => I)]. }
  rewrite E2. unfold nearly.
  assert (K : forall js, (Forall (cbf_by eps L d v) (filter is_barrier js) /\ Forall (holds_by eps L d v) (filter is_hard js)) <->
    Forall (fun j => (is_barrier j = true -> cbf_by eps L d v j) /\ (is_hard j = true -> holds_by eps L d v j)) js).
  { intros js. rewrite !Forall_forall. split.
    - intros [A B] j Hj. split; intros E; [apply A|apply B]; apply filter_In; auto.
    - intros A. split; intros j Hj; apply filter_In in Hj; destruct Hj as [Hj E]; now apply A. }
  rewrite <- K. tauto.
Qed.
End Assembled.
Lemma program_residual L m os pi pd d Q eps v : tidy m os -> compiled_by os pi pd -> sound_lib L m -> wf_data m d -> Forall (accepted L d) (comps_of pd) ->
  assemble L m pd d = Ok Q -> List.length v = m_nv m -> (residual eps Q v <-> nearly eps L d pd v).
Proof.
  intros Ht Hc HL Hd Ha HQ Hv. destruct (program_shaped L m os pi pd Ht Hc HL d Hd Ha) as (E & F & A & B). apply (residual_nearly L m pd d Q E HQ F); auto. congruence.
Qed.
(** Tolerance zero is admissibility. *)
Lemma vle_by_0 x y : vle_by 0 x y <-> vle x y.
Proof. unfold vle_by, vle. split; intros H; induction H; constructor; lra || assumption. Qed.
Lemma close_by_0 x y : close_by 0 x y <-> x = y.
Proof.
  unfold close_by. split.
  - intros H. induction H as [|a b x y H _ IH]; [reflexivity|]. f_equal; [|exact IH]. pose proof (Rabs_pos (a - b)). assert (K : Rabs (a - b) = 0) by lra. destruct (Req_dec (a - b) 0) as [Z|Z]; [lra|]. apply Rabs_no_R0 in Z. contradiction.
  - intros <-. induction x as [|a x IH]; constructor; [|exact IH]. rewrite Rminus_diag_eq by reflexivity. rewrite Rabs_R0. lra.
Qed.
Lemma nearly_0 L d pd v : nearly 0 L d pd v <-> admissible L d pd v.
Proof.
  unfold nearly, admissible. rewrite !vle_by_0. assert (K : forall js, Forall (fun j => (is_barrier j = true -> cbf_by 0 L d v j) /\ (is_hard j = true -> holds_by 0 L d v j)) js <-> Forall (fun j => (is_barrier j = true -> cbf L d v j) /\ (is_hard j = true -> holds_exactly L d v j)) js).
  { intros js. rewrite !Forall_forall. unfold cbf_by, cbf, holds_by, holds_exactly. split; intros H j Hj; destruct (H j Hj) as [A B]; (split; intros E J e EJ Ee; [apply vle_by_0|apply close_by_0]; auto). }
  rewrite K. tauto.
Qed.

(** ** Steps *)
(** One step of length dt of a barrier with gain a, up to eps. *)
Lemma near_step a h j eps dt : 0 <= dt -> 0 <= a -> a * dt <= 1 -> - (a * h) <= j + eps -> (1 - a * dt) * h - eps * dt <= h + dt * j.
Proof. intros. nra. Qed.
(** Slack after k steps: what is left of the slack at the start, less the accumulated errors. *)
Fixpoint errors (a dt : R) (k : nat) : R := match k with O => 0 | S k => (1 - a * dt) * errors a dt k + dt end.
Lemma errors_closed a dt k : a <> 0 -> errors a dt k = (1 - (1 - a * dt) ^ k) / a.
Proof. intros Ha. induction k as [|k IH]; cbn; [field; exact Ha|]. rewrite IH. field. exact Ha. Qed.
Lemma errors_bound a dt k : 0 < a -> a * dt <= 1 -> errors a dt k <= / a.
Proof.
  intros Ha H. rewrite errors_closed by lra. pose proof (pow_le (1 - a * dt) k ltac:(lra)). unfold Rdiv. rewrite <- (Rmult_1_l (/ a)) at 2. apply Rmult_le_compat_r; [left; now apply Rinv_0_lt_compat|lra].
Qed.
Lemma near_steps a eps dt (h : nat -> R) : 0 <= dt -> 0 <= a -> a * dt <= 1 -> (forall k, exists j, - (a * h k) <= j + eps /\ h (S k) = h k + dt * j) ->
  forall k, (1 - a * dt) ^ k * h 0%nat - eps * errors a dt k <= h k.
Proof.
  intros Hd Ha H1 Hc. induction k as [|k IH]; cbn; [lra|]. destruct (Hc k) as (j & C & ->). pose proof (near_step a (h k) j eps dt Hd Ha H1 C) as K.
  assert (M : (1 - a * dt) * ((1 - a * dt) ^ k * h 0%nat - eps * errors a dt k) <= (1 - a * dt) * h k) by (apply Rmult_le_compat_l; lra). lra.
Qed.

(** ** Joint limits in discrete time *)
Lemma nth_vle_by eps a b i : vle_by eps a b -> (i < List.length a)%nat -> nth i a 0 <= nth i b 0 + eps.
Proof. intros H. revert i. induction H as [|x y a b H _ IH]; intros [|i] Hi; cbn in *; try lia; [exact H|]. apply IH. lia. Qed.
Lemma nth_vadd_scale dt a b i : List.length a = List.length b -> nth i (vadd a (vscale dt b)) 0 = nth i a 0 + dt * nth i b 0.
Proof. unfold vadd, vscale, vmap2. revert b i. induction a as [|x a IH]; intros [|y b] [|i] H; try discriminate; cbn; try ring. apply IH. now injection H. Qed.

Lemma near_limits L fm j lo hi pd eps dt (q v : nat -> vec) : let m := jd_model pd in
  joint_barrier fm j -> In j (comps_of pd) -> j_model j = m -> has_limits j lo hi ->
  List.length lo = List.length (selected m fm) -> List.length hi = List.length (selected m fm) ->
  keeps_scalars L m -> (forall x, j_gain_fn j x = x) -> 0 <= dt -> Forall (fun a => 0 <= a /\ a * dt <= 1) (j_gain j) ->
  near_loop eps L m pd dt q v ->
  (forall k, List.length (q k) = m_nq m) /\ List.length (j_gain j) = List.length (slack lo hi (sel_pos m fm (q 0%nat))) /\
  forall k i, (i < List.length (j_gain j))%nat ->
    let a := nth i (j_gain j) 0 in (1 - a * dt) ^ k * nth i (slack lo hi (sel_pos m fm (q 0%nat))) 0 - eps * errors a dt k <= nth i (slack lo hi (sel_pos m fm (q k))) 0.
Proof.
  intros m Hj Hin Hm Hl L1 L2 Hk Hid Hdt Hg [Q0 Hs]. rewrite <- Hm in L1, L2.
  assert (Lq : forall k, List.length (q k) = m_nq m).
  { induction k as [|k IH]; [exact Q0|]. destruct (Hs k) as ((Lv & _) & Hi). fold m in Lv. rewrite <- Hm in *.
    destruct (joint_barrier_motion fm j lo hi Hj Hl L (q k) (update L (j_model j) (q k)) IH (Hk _ IH) L1 L2) as (J & _ & _ & _ & _ & _ & M).
    destruct (M (v k) dt Lv) as (q' & Hi' & Lq' & _). rewrite Hi in Hi'. injection Hi' as <-. exact Lq'. }
  split; [exact Lq|].
  set (h := fun k => slack lo hi (sel_pos m fm (q k))).
  assert (ST : forall k, List.length (j_gain j) = List.length (h k) /\ exists r, List.length r = List.length (h k) /\ h (S k) = vadd (h k) (vscale dt r) /\ vle_by eps (vneg (gained j (h k))) r).
  { intros k. destruct (Hs k) as ((Lv & _ & _ & Hc) & Hn). pose proof (Hk _ (Lq k)) as Ha. pose proof (Lq k) as Lk.
    rewrite Forall_forall in Hc. destruct (Hc j Hin) as [Hc1 _]. specialize (Hc1 (barrier_is _ _ Hj)).
    assert (Ha' : agrees (j_model j) (q k) (d_qpos (update L m (q k)))) by (rewrite Hm; exact Ha). fold m in Lv. rewrite <- Hm in Lk, Lv.
    destruct (joint_barrier_motion fm j lo hi Hj Hl L (q k) (update L m (q k)) Lk Ha' L1 L2) as (J & Ec & EJ & Enn & _ & Eg & M).
    rewrite Hm in Ec, Enn, Eg. split; [exact Eg|]. destruct (M (v k) dt Lv) as (q' & Hi' & _ & Es & _). rewrite Hm, Hn in Hi'. injection Hi' as <-. rewrite Hm in Es.
    specialize (Hc1 J _ EJ Ec). exists (mv J (v k)). split; [|split; [exact Es|exact Hc1]]. apply vle_by_length in Hc1. rewrite <- Hc1, vneg_length, gained_length by exact Eg. reflexivity. }
  split; [apply ST|]. intros k i Hi a.
  assert (Ga : 0 <= a /\ a * dt <= 1) by (rewrite Forall_forall in Hg; apply Hg, nth_In, Hi).
  assert (X : forall k, exists r, - (a * nth i (h k) 0) <= r + eps /\ nth i (h (S k)) 0 = nth i (h k) 0 + dt * r).
  { intros k0. destruct (ST k0) as (Lg & r & Lr & E & C). exists (nth i r 0). split.
    - pose proof (nth_vle_by _ _ _ i C ltac:(rewrite vneg_length, gained_length by exact Lg; lia)) as K. rewrite nth_vneg, nth_gained in K by (rewrite ?Lg; lia). now rewrite Hid in K.
    - rewrite E. apply nth_vadd_scale. lia. }
  apply (near_steps a eps dt (fun k => nth i (h k) 0)); tauto.
Qed.
