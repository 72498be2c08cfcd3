(** Joint limits with rounding. *)
From Flocq Require Import Core.Zaux Core.Raux Core.Defs Core.Generic_fmt Core.FLT Core.Round_NE.
From Flocq Require Import Relative.
From Verif Require Import Base Lin LinFacts Mjx Typing Component Problem SpecComponent ComponentFacts ComponentFacts2 SpecJoint SpecHistory JointFacts BindFacts BindFacts3 SpecProblem SpecShape SpecFit SpecValue Rot Conf FrameJac Collide JaxComponents LocalIK SpecQP QPFacts QPThms QPThms2 QPThms3 QPThms4 SpecMotion MotionFacts MotionFacts2 SpecLoop LoopFacts FitThms FitFacts FitFacts3 SpecSolve SolveFacts SolveThms SpecDescent DescentFacts2 DescentThms2 SpecClosed SpecTol TolFacts TolThms SpecRound.
Open Scope R_scope.

Lemma fl32_error x : Rabs (fl32 x - x) <= / 2 ^ 24 * Rabs x + / 2 ^ 150.
Proof.
  assert (P : (0 < 24)%Z) by reflexivity. destruct (error_N_FLT radix2 (-149) 24 P (fun z => negb (Z.even z)) x) as (e & t & He & Ht & _ & E).
  unfold fl32. rewrite E. replace (x * (1 + e) + t - x) with (x * e + t) by ring. eapply Rle_trans; [apply Rabs_triang|]. rewrite Rabs_mult.
  assert (A : / 2 * bpow radix2 (-24 + 1) = / 2 ^ 24). { change (/ 2 * / IZR (2 ^ 23) = / 2 ^ 24). rewrite <- Rinv_mult. f_equal. change 23%Z with (Z.of_nat 23). rewrite <- pow_IZR. reflexivity. }
  assert (B : / 2 * bpow radix2 (-149) = / 2 ^ 150). { change (/ 2 * / IZR (2 ^ 149) = / 2 ^ 150). rewrite <- Rinv_mult. f_equal. change 149%Z with (Z.of_nat 149). rewrite <- pow_IZR. reflexivity. }
  change (Rabs e <= / 2 * bpow radix2 (-24 + 1)) in He. rewrite A in He. rewrite B in Ht. pose proof (Rabs_pos x) as Px. assert (Rabs x * Rabs e <= Rabs x * / 2 ^ 24) by (apply Rmult_le_compat_l; assumption). lra.
Qed.
(** x + y * dt with both operations rounded. *)
Lemma fl32_step x p X P : Rabs x <= X -> Rabs p <= P -> Rabs (fl32 (x + fl32 p) - (x + p)) <= (X + 3 * P) / 2 ^ 24 + 3 / 2 ^ 150.
Proof.
  intros Hx Hp. pose proof (fl32_error p) as E1. pose proof (fl32_error (x + fl32 p)) as E2. set (u := / 2 ^ 24) in *. set (n := / 2 ^ 150) in *.
  assert (U : 0 < u <= 1). { unfold u. split; [apply Rinv_0_lt_compat; lra|]. rewrite <- Rinv_1. apply Rinv_le_contravar; lra. } assert (N : 0 < n) by (unfold n; apply Rinv_0_lt_compat; apply pow_lt; lra).
  pose proof (Rabs_pos x). pose proof (Rabs_pos p).
  assert (F : Rabs (fl32 p) <= Rabs p + (u * Rabs p + n)). { replace (fl32 p) with (p + (fl32 p - p)) by ring. eapply Rle_trans; [apply Rabs_triang|]. lra. }
  assert (G : Rabs (x + fl32 p) <= X + (P + (u * P + n))). { eapply Rle_trans; [apply Rabs_triang|]. assert (u * Rabs p <= u * P) by (apply Rmult_le_compat_l; lra). lra. }
  replace (fl32 (x + fl32 p) - (x + p)) with ((fl32 (x + fl32 p) - (x + fl32 p)) + (fl32 p - p)) by ring. eapply Rle_trans; [apply Rabs_triang|].
  assert (u * Rabs (x + fl32 p) <= u * (X + (P + (u * P + n)))) by (apply Rmult_le_compat_l; lra). assert (u * Rabs p <= u * P) by (apply Rmult_le_compat_l; lra).
  assert (P0 : 0 <= P) by lra. assert (u * (u * P) <= u * P) by (rewrite <- (Rmult_1_l (u * P)) at 2; apply Rmult_le_compat_r; [apply Rmult_le_pos; lra|lra]). assert (u * n <= n) by (rewrite <- (Rmult_1_l n) at 2; apply Rmult_le_compat_r; lra).
  unfold Rdiv. fold u. fold n. lra.
Qed.

(** One step of one joint barrier. *)
Lemma sel_off rho m fm x q' : off_by rho m x q' -> close_by rho (sel_pos m fm q') (sel_pos m fm x).
Proof.
  intros [_ H]. unfold sel_pos, close_by. assert (G : forall js, (forall k, In k js -> In k (selected m fm)) -> Forall2 (fun a b => Rabs (a - b) <= rho) (map (fun j => nth (qpos_of m j) q' 0) js) (map (fun j => nth (qpos_of m j) x 0) js)); [|apply G; auto].
  induction js as [|k js IH]; intros Hk; [constructor|]. cbn. constructor; [|apply IH; intros; apply Hk; now right]. destruct (selected_scalar m fm k (Hk k (or_introl eq_refl))) as (t & T1 & T2). exact (H k t T1 T2).
Qed.
Lemma slack_off rho lo hi x y i : close_by rho y x -> List.length lo = List.length x -> List.length hi = List.length x -> (i < List.length (slack lo hi x))%nat -> nth i (slack lo hi x) 0 - rho <= nth i (slack lo hi y) 0.
Proof.
  intros H L1 L2 Hi. assert (F : Forall2 (fun a b => a - rho <= b) (slack lo hi x) (slack lo hi y)).
  { clear Hi. unfold slack, vsub, vmap2. apply Forall2_app.
    - clear L2 hi. revert lo L1. induction H as [|b a y x K _ IH]; intros [|l lo] L1; try discriminate; [constructor|]. cbn. constructor; [|apply IH; now injection L1]. unfold Rabs in K. destruct (Rcase_abs (b - a)); lra.
    - clear L1 lo. revert hi L2. induction H as [|b a y x K _ IH]; intros [|h hi] L2; try discriminate; [constructor|]. cbn. constructor; [|apply IH; now injection L2]. unfold Rabs in K. destruct (Rcase_abs (b - a)); lra. }
  clear H L1 L2. revert i Hi. induction F as [|a b s t K _ IH]; intros [|i] Hi; cbn in *; try lia; [exact K|]. apply IH. lia.
Qed.
Lemma rounded_step L m os pi pd fm j lo hi eps rho dt q v x q' :
  tidy m os -> compiled_by os pi pd -> sound_lib L m -> Forall (accepted L (update L m q)) (comps_of pd) ->
  joint_barrier fm j -> In j (comps_of pd) -> has_limits j lo hi -> keeps_scalars L m -> (forall x, j_gain_fn j x = x) -> 0 <= dt ->
  List.length q = m_nq m -> nearly eps L (update L m q) pd v -> integrate m q v dt = Ok x -> close_by rho (sel_pos m fm q') (sel_pos m fm x) ->
  List.length lo = List.length (selected m fm) /\ List.length hi = List.length (selected m fm) /\ List.length (j_gain j) = List.length (slack lo hi (sel_pos m fm q)) /\
  forall i, (i < List.length (j_gain j))%nat -> (1 - nth i (j_gain j) 0 * dt) * nth i (slack lo hi (sel_pos m fm q)) 0 - eps * dt - rho <= nth i (slack lo hi (sel_pos m fm q')) 0.
Proof.
  intros Ht Hc HL A0 Hj Hin Hl Hk Hid Hdt Lk (Lv & _ & _ & HC) Hn Ho. destruct (program_components m os pi pd Ht Hc) as (Em & V1 & V2 & F).
  assert (Hm : j_model j = m) by (rewrite Forall_forall in F; apply (F j Hin)).
  pose proof (joint_barrier_facts fm j Hj) as (_ & _ & _ & _ & _ & s & lo' & hi' & E). destruct Hl as (s' & qi & E'). rewrite E in E'. injection E' as -> -> -> <-.
  rewrite Forall_forall in A0. specialize (A0 j Hin). unfold accepted in A0. rewrite E in A0. destruct A0 as ((l & El & Ll) & (h & Eh & Lh)). injection El as _ <-. injection Eh as _ <-.
  unfold qidx_of in Ll, Lh. rewrite map_length in Ll, Lh. assert (HL' : has_limits j lo hi) by (exists s', (qidx_of (j_model j) fm); exact E).
  rewrite Forall_forall in HC. destruct (HC j Hin) as [Hc1 _]. specialize (Hc1 (barrier_is _ _ Hj)).
  pose proof (Hk _ Lk) as Ha. rewrite <- Hm in Ha, Lk. rewrite Em, <- Hm in Lv.
  destruct (joint_barrier_motion fm j lo hi Hj HL' L q (update L (j_model j) q) Lk Ha Ll Lh) as (J & Ec & EJ & _ & _ & Eg & M).
  destruct (M v dt Lv) as (x' & Hi' & _ & Es & _). rewrite Hm in *. rewrite Hn in Hi'. injection Hi' as <-.
  specialize (Hc1 J _ EJ Ec). split; [exact Ll|]. split; [exact Lh|]. split; [exact Eg|]. intros i Hi.
  set (h := slack lo hi (sel_pos m fm q)) in *.
  assert (Lr : List.length (mv J v) = List.length h). { pose proof (vle_by_length _ _ _ Hc1) as Q. rewrite <- Q, vneg_length, gained_length by exact Eg. reflexivity. }
  pose proof (nth_vle_by _ _ _ i Hc1 ltac:(rewrite vneg_length, gained_length by exact Eg; lia)) as K. rewrite nth_vneg, nth_gained in K by (rewrite ?Eg; lia). rewrite Hid in K.
  assert (X : nth i (slack lo hi (sel_pos m fm x)) 0 = nth i h 0 + dt * nth i (mv J v) 0) by (rewrite Es; apply nth_vadd_scale; lia).
  pose proof (slack_off rho lo hi _ _ i Ho) as S. rewrite !sel_pos_length in S. specialize (S Ll Lh).
  assert (Li : (i < List.length (slack lo hi (sel_pos m fm x)))%nat). { rewrite Es. unfold vadd, vscale, vmap2. rewrite map_length, combine_length, map_length. lia. }
  specialize (S Li). rewrite X in S. assert (dt * - (nth i (j_gain j) 0 * nth i h 0) <= dt * (nth i (mv J v) 0 + eps)) by (apply Rmult_le_compat_l; lra). lra.
Qed.
