(** Joint limits with rounding, for loops of any length. *)
From Flocq Require Import Core.Zaux Core.Raux Core.Defs Core.Generic_fmt Core.FLT Core.Round_NE.
From Flocq Require Import Relative.
From Verif Require Import Base Lin LinFacts Mjx Typing Component Problem SpecComponent ComponentFacts ComponentFacts2 SpecJoint SpecHistory JointFacts BindFacts BindFacts3 SpecProblem SpecShape SpecFit SpecValue Rot Conf FrameJac Collide JaxComponents LocalIK SpecQP QPFacts QPThms QPThms2 QPThms3 QPThms4 SpecMotion MotionFacts MotionFacts2 SpecLoop LoopFacts FitThms FitFacts FitFacts3 SpecSolve SolveFacts SolveThms SpecDescent DescentFacts2 DescentThms2 SpecClosed SpecTol TolFacts TolThms SpecRound RoundFacts.
Open Scope R_scope.

Lemma slack_length lo hi x : List.length lo = List.length x -> List.length hi = List.length x -> List.length (slack lo hi x) = (2 * List.length x)%nat.
Proof. intros H1 H2. unfold slack, vsub, vmap2. rewrite app_length, !map_length, !combine_length. lia. Qed.
Lemma rounded_limits L m os pi pd fm j lo hi eps rho dt (q v : nat -> vec) :
  (forall k : nat, tidy m (os k) /\ compiled_by (os k) (pi k) (pd k) /\ In j (comps_of (pd k)) /\ Forall (accepted L (update L m (q k))) (comps_of (pd k))) -> sound_lib L m ->
  joint_barrier fm j -> has_limits j lo hi -> keeps_scalars L m -> (forall x, j_gain_fn j x = x) -> 0 < dt -> Forall (fun a => 0 < a /\ a * dt <= 1) (j_gain j) ->
  rounded_loop eps rho L m pd dt q v ->
  (forall k i, (i < List.length (j_gain j))%nat -> let a := nth i (j_gain j) 0 in let r := (1 - a * dt) ^ k in
     r * nth i (slack lo hi (sel_pos m fm (q 0%nat))) 0 - (1 - r) * ((eps + rho / dt) / a) <= nth i (slack lo hi (sel_pos m fm (q k))) 0) /\
  (forall g, 0 < g -> Forall (fun a => g <= a) (j_gain j) -> 0 <= eps -> 0 <= rho -> within_by ((eps + rho / dt) / g) lo hi (sel_pos m fm (q 0%nat)) -> forall k, within_by ((eps + rho / dt) / g) lo hi (sel_pos m fm (q k))).
Proof.
  intros Hp HL Hj Hl Hk Hid Hdt Hg [Q0 Hs].
  assert (Lq : forall k, List.length (q k) = m_nq m) by (intros [|k]; [exact Q0|]; destruct (Hs k) as (_ & x & _ & Lq & _); exact Lq).
  assert (ST : forall k, List.length lo = List.length (selected m fm) /\ List.length hi = List.length (selected m fm) /\ List.length (j_gain j) = List.length (slack lo hi (sel_pos m fm (q k))) /\
    forall i, (i < List.length (j_gain j))%nat -> (1 - nth i (j_gain j) 0 * dt) * nth i (slack lo hi (sel_pos m fm (q k))) 0 - eps * dt - rho <= nth i (slack lo hi (sel_pos m fm (q (S k)))) 0).
  { intros k. destruct (Hp k) as (P1 & P2 & P3 & P4), (Hs k) as (N & x & Hi & Ho). apply (rounded_step L m (os k) (pi k) (pd k) fm j lo hi eps rho dt (q k) (v k) x (q (S k))); auto; [lra|now apply sel_off]. }
  destruct (ST 0%nat) as (Ll & Lh & Lg & _).
  assert (N : forall k i, (i < List.length (j_gain j))%nat -> let a := nth i (j_gain j) 0 in let r := (1 - a * dt) ^ k in
     r * nth i (slack lo hi (sel_pos m fm (q 0%nat))) 0 - (1 - r) * ((eps + rho / dt) / a) <= nth i (slack lo hi (sel_pos m fm (q k))) 0).
  { intros k i Hi a. assert (Pa : 0 < a /\ a * dt <= 1) by (rewrite Forall_forall in Hg; apply (Hg a), nth_In, Hi). induction k as [|k IH]; cbv zeta in *; [rewrite !pow_O; lra|].
    destruct (ST k) as (_ & _ & _ & SS). specialize (SS i Hi). fold a in SS. eapply Rle_trans; [|exact SS]. set (r := (1 - a * dt) ^ k) in *. set (s := nth i (slack lo hi (sel_pos m fm (q k))) 0) in *. set (s0 := nth i (slack lo hi (sel_pos m fm (q 0%nat))) 0) in *.
    replace ((1 - a * dt) ^ S k) with ((1 - a * dt) * r) by reflexivity. assert (M : (1 - a * dt) * (r * s0 - (1 - r) * ((eps + rho / dt) / a)) <= (1 - a * dt) * s) by (apply Rmult_le_compat_l; lra).
    assert (E : (1 - a * dt) * r * s0 - (1 - (1 - a * dt) * r) * ((eps + rho / dt) / a) = (1 - a * dt) * (r * s0 - (1 - r) * ((eps + rho / dt) / a)) - eps * dt - rho) by (field; lra). lra. }
  split; [exact N|]. intros g Pg Gg Pe Pr W0 k. apply slack_by in W0; [|rewrite sel_pos_length; assumption|rewrite sel_pos_length; assumption]. apply slack_by; [rewrite sel_pos_length; assumption|rewrite sel_pos_length; assumption|].
  destruct (ST k) as (_ & _ & Lk & _). apply Forall_nth. intros i d Hi. rewrite (nth_indep _ d 0) by exact Hi. rewrite <- Lk in Hi. specialize (N k i Hi). cbv zeta in N.
  set (a := nth i (j_gain j) 0) in *. set (r := (1 - a * dt) ^ k) in *. set (e := eps + rho / dt) in *. assert (Pe' : 0 <= e) by (unfold e; assert (0 <= rho / dt) by (apply Rmult_le_pos; [exact Pr|apply Rlt_le, Rinv_0_lt_compat, Hdt]); lra).
  assert (Pa : 0 < a /\ a * dt <= 1) by (rewrite Forall_forall in Hg; apply (Hg a), nth_In, Hi). assert (Ga : g <= a) by (rewrite Forall_forall in Gg; apply (Gg a), nth_In, Hi).
  assert (P : 0 <= r <= 1). { unfold r. split; [apply pow_le; lra|]. assert (0 <= a * dt) by (apply Rmult_le_pos; lra). apply Rle_trans with (1 ^ k); [apply pow_incr; lra|rewrite pow1; lra]. }
  assert (S0 : - (e / g) <= nth i (slack lo hi (sel_pos m fm (q 0%nat))) 0) by (rewrite Forall_forall in W0; apply W0, nth_In; rewrite <- Lg; exact Hi).
  assert (Q1 : e / a <= e / g) by (unfold Rdiv; apply Rmult_le_compat_l; [exact Pe'|]; apply Rinv_le_contravar; lra).
  assert (r * - (e / g) <= r * nth i (slack lo hi (sel_pos m fm (q 0%nat))) 0) by (apply Rmult_le_compat_l; lra).
  assert ((1 - r) * (e / a) <= (1 - r) * (e / g)) by (apply Rmult_le_compat_l; lra). lra.
Qed.

(** Binary32. *)
Lemma fl32_close L m fm pd eps dt V X q v x q' : wf_joints m -> List.length q = m_nq m -> List.length v = m_nv m -> vle_by eps v (vneg (jd_vmin pd)) -> vle_by eps (vneg v) (jd_vmax pd) ->
  at_most V (jd_vmin pd) -> at_most V (jd_vmax pd) -> 0 <= V -> 0 <= eps -> 0 <= dt -> at_most X (sel_pos m fm q) -> integrate m q v dt = Ok x -> nearly eps L (update L m q) pd v ->
  (forall i t, joint_type m i t -> is_scalar t = true -> nth (qpos_of m i) q' 0 = fl32 (nth (qpos_of m i) q 0 + fl32 (dt * nth (dof_of m i) v 0))) ->
  close_by ((X + 3 * (dt * (V + eps))) / 2 ^ 24 + 3 / 2 ^ 150) (sel_pos m fm q') (sel_pos m fm x).
Proof.
  intros Hw Lq Lv V1 V2 A1 A2 PV Pe Pd AX Hi _ H. destruct (integrate_spec m Hw q v dt Lq Lv) as (x' & Hi' & _ & S & _). rewrite Hi in Hi'. injection Hi' as <-.
  assert (BV : forall i, Rabs (nth i v 0) <= V + eps).
  { intros i. destruct (Nat.lt_ge_cases i (List.length v)) as [K|K]; [|rewrite nth_overflow by exact K; rewrite Rabs_R0; lra].
    pose proof (nth_vle_by _ _ _ i V1 K) as B1. pose proof (nth_vle_by _ _ _ i V2 ltac:(rewrite vneg_length; exact K)) as B2. rewrite !nth_vneg in *.
    assert (N : forall l, at_most V l -> Rabs (nth i l 0) <= V) by (intros l Hl; destruct (Nat.lt_ge_cases i (List.length l)) as [Q|Q]; [unfold at_most in Hl; rewrite Forall_forall in Hl; apply Hl, nth_In, Q|rewrite nth_overflow by exact Q; rewrite Rabs_R0; exact PV]).
    pose proof (N _ A1) as C1. pose proof (N _ A2) as C2. unfold Rabs in *. destruct (Rcase_abs (nth i v 0)), (Rcase_abs (nth i (jd_vmin pd) 0)), (Rcase_abs (nth i (jd_vmax pd) 0)); lra. }
  unfold sel_pos, close_by. unfold at_most, sel_pos in AX. rewrite Forall_map in AX. rewrite Forall_forall in AX.
  assert (G : forall js, (forall k, In k js -> In k (selected m fm)) -> Forall2 (fun a b => Rabs (a - b) <= (X + 3 * (dt * (V + eps))) / 2 ^ 24 + 3 / 2 ^ 150) (map (fun j => nth (qpos_of m j) q' 0) js) (map (fun j => nth (qpos_of m j) x 0) js)); [|apply G; auto].
  induction js as [|k js IH]; intros Hk; [constructor|]. cbn [map]. constructor; [|apply IH; intros; apply Hk; now right]. pose proof (Hk k (or_introl eq_refl)) as Hin. destruct (selected_scalar m fm k Hin) as (t & T1 & T2).
  rewrite (H k t T1 T2), (S k t T1 T2). apply fl32_step; [now apply AX|]. rewrite Rabs_mult, (Rabs_pos_eq dt) by exact Pd. apply Rmult_le_compat_l; [exact Pd|apply BV].
Qed.
Lemma within_at_most B w lo hi x : List.length lo = List.length x -> List.length hi = List.length x -> at_most B lo -> at_most B hi -> within_by w lo hi x -> at_most (B + w) x.
Proof.
  unfold at_most, within_by, vle_by. revert lo hi. induction x as [|a x IH]; intros [|l lo] [|h hi] H1 H2 A1 A2 [W1 W2]; try discriminate; [constructor|]. inversion A1; subst. inversion A2; subst. inversion W1; subst. inversion W2; subst. constructor.
  - unfold Rabs in *. destruct (Rcase_abs a), (Rcase_abs l), (Rcase_abs h); lra.
  - apply (IH lo hi); auto.
Qed.
Lemma fl32_limits L m os pi pd fm j lo hi eps dt B V w g (q v : nat -> vec) :
  (forall k : nat, tidy m (os k) /\ compiled_by (os k) (pi k) (pd k) /\ In j (comps_of (pd k)) /\ Forall (accepted L (update L m (q k))) (comps_of (pd k)) /\ at_most V (jd_vmin (pd k)) /\ at_most V (jd_vmax (pd k))) -> sound_lib L m ->
  joint_barrier fm j -> has_limits j lo hi -> at_most B lo -> at_most B hi -> keeps_scalars L m -> (forall x, j_gain_fn j x = x) -> Forall (fun a => g <= a /\ a * dt <= 1) (j_gain j) ->
  0 <= dt -> 0 <= eps -> 0 <= V -> 0 <= w -> eps * dt + (B + w + 3 * (dt * (V + eps))) / 2 ^ 24 + 3 / 2 ^ 150 <= g * dt * w ->
  fl32_loop eps L m pd dt q v -> within_by w lo hi (sel_pos m fm (q 0%nat)) -> forall k, within_by w lo hi (sel_pos m fm (q k)).
Proof.
  intros Hp HL Hj Hl AB1 AB2 Hk Hid Hg Pd Pe PV Pw HI Hs W0. induction k as [|k IH]; [exact W0|].
  destruct (Hp k) as (P1 & P2 & P3 & P4 & P5 & P6), (Hs k) as (Lq & N & F). destruct (Hs (S k)) as (Lq' & _).
  destruct (program_components m (os k) (pi k) (pd k) P1 P2) as (Em & _ & _ & FC). assert (Hm : j_model j = m) by (rewrite Forall_forall in FC; apply (FC j P3)).
  pose proof (joint_barrier_facts fm j Hj) as (Hw & _). rewrite Hm in Hw. pose proof N as (Lv & V1 & V2 & _). rewrite Em in Lv.
  destruct (integrate_spec m Hw (q k) (v k) dt Lq Lv) as (x & Hi & _).
  assert (LL : List.length lo = List.length (selected m fm) /\ List.length hi = List.length (selected m fm)).
  { destruct (rounded_step L m (os k) (pi k) (pd k) fm j lo hi eps 0 dt (q k) (v k) x x P1 P2 HL P4 Hj P3 Hl Hk Hid Pd Lq N Hi) as (A & B' & _); [|now split]. apply sel_off. destruct (sel_pos_integrate m fm _ _ dt x Hw Lq Lv Hi) as [Lx _]. split; [exact Lx|]. intros. rewrite Rminus_diag_eq by reflexivity. rewrite Rabs_R0. lra. }
  destruct LL as [Ll Lh].
  assert (AX : at_most (B + w) (sel_pos m fm (q k))) by (apply (within_at_most B w lo hi); rewrite ?sel_pos_length; auto).
  pose proof (fl32_close L m fm (pd k) eps dt V (B + w) (q k) (v k) x (q (S k)) Hw Lq Lv V1 V2 P5 P6 PV Pe Pd AX Hi N F) as C. set (rho := (B + w + 3 * (dt * (V + eps))) / 2 ^ 24 + 3 / 2 ^ 150) in *.
  destruct (rounded_step L m (os k) (pi k) (pd k) fm j lo hi eps rho dt (q k) (v k) x (q (S k)) P1 P2 HL P4 Hj P3 Hl Hk Hid Pd Lq N Hi C) as (_ & _ & Lg & S).
  apply slack_by in IH; [|rewrite sel_pos_length; assumption|rewrite sel_pos_length; assumption]. apply slack_by; [rewrite sel_pos_length; assumption|rewrite sel_pos_length; assumption|].
  apply Forall_nth. intros i d Hi'. rewrite (nth_indep _ d 0) by exact Hi'. rewrite slack_length in Hi' by (rewrite sel_pos_length; assumption). rewrite sel_pos_length in Hi'.
  rewrite slack_length in Lg by (rewrite sel_pos_length; assumption). rewrite sel_pos_length in Lg. rewrite <- Lg in Hi'. specialize (S i Hi').
  assert (I0 : - w <= nth i (slack lo hi (sel_pos m fm (q k))) 0) by (rewrite Forall_forall in IH; apply IH, nth_In; rewrite slack_length by (rewrite sel_pos_length; assumption); rewrite sel_pos_length; lia).
  set (a := nth i (j_gain j) 0) in *. set (s := nth i (slack lo hi (sel_pos m fm (q k))) 0) in *. assert (Pa : g <= a /\ a * dt <= 1) by (rewrite Forall_forall in Hg; apply (Hg a), nth_In, Hi').
  assert ((1 - a * dt) * - w <= (1 - a * dt) * s) by (apply Rmult_le_compat_l; lra). assert (g * (dt * w) <= a * (dt * w)) by (apply Rmult_le_compat_r; [now apply Rmult_le_pos|lra]). unfold rho in S. lra.
Qed.
