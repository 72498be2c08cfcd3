(** One hinge with range [-1, 1]: a solver and an integration that are both off, and binary32. *)
From Flocq Require Import Core.Zaux Core.Raux Core.Defs Core.Generic_fmt Core.FLX Core.FLT Core.Round_NE Core.Float_prop.
From Verif Require Import Base Lin LinFacts Mjx Typing Component Problem SpecComponent SpecJoint SpecHistory SpecProblem SpecShape SpecFit SpecTrace SpecSetup SpecValue Conf JaxComponents LocalIK SpecQP SpecMotion SpecLoop SpecSolve SpecClosed SpecDescent.
From Verif Require Import SetupFacts SetupFacts2 SetupCases QPFacts QPThms3 QPCases MotionCases ValueCases FitFacts FitFacts3 FitCases SolveThms DescentFacts DescentFacts2 DescentThms DescentThms2 DescentCases SpecGoals GoalCases ClosedCases SpecTol TolFacts TolThms TolThms2 TolThms3 TolCases SpecRound RoundFacts RoundThms.
Open Scope R_scope.

(** Step 1/2, each velocity a tenth too fast, each sum a twentieth too large. *)
Definition slip_q (k : nat) : vec := [1 + 1 / 5 * (1 - (1 / 2) ^ k)].
Definition slip_v (k : nat) : vec := [1 / 10 - 1 / 5 * (1 - (1 / 2) ^ k)].
Lemma one_joint i t : joint_type one i t -> i = 0%nat.
Proof. intros H. destruct i as [|i]; [reflexivity|]. destruct i; discriminate H. Qed.
Lemma slip_case : let pd := pull_pd (1 / 2) in rounded_loop (1 / 10) (1 / 20) even_lib one (fun _ => pd) (1 / 2) slip_q slip_v /\
  (forall k, tidy one (pull_prog (1 / 2)) /\ compiled_by (pull_prog (1 / 2)) 0 pd /\ In lim1_j (comps_of pd) /\ Forall (accepted even_lib (update even_lib one (slip_q k))) (comps_of pd)) /\ sound_lib even_lib one /\
  within_by ((1 / 10 + 1 / 20 / (1 / 2)) / 1) [-1] [1] (sel_pos one None (slip_q 0)) /\ ~ within_by (1 / 10 / 1) [-1] [1] (sel_pos one None (slip_q 2)) /\
  forall k, nth 1 (slack [-1] [1] (sel_pos one None (slip_q k))) 0 = (1 - 1 * (1 / 2)) ^ k * nth 1 (slack [-1] [1] (sel_pos one None (slip_q 0))) 0 - (1 - (1 - 1 * (1 / 2)) ^ k) * ((1 / 10 + 1 / 20 / (1 / 2)) / 1).
Proof.
  cbv zeta. split; [|split; [|split; [apply even_sound|split; [|split]]]].
  - split; [reflexivity|]. intros k. pose proof (half_pow k) as P. split; [apply (pull_nearly (1 / 2) (1 / 10) (1 + 1 / 5 * (1 - (1 / 2) ^ k))); eexists; split; [reflexivity|lra]|].
    exists [1 + 1 / 5 * (1 - (1 / 2) ^ k) + 1 / 2 * (1 / 10 - 1 / 5 * (1 - (1 / 2) ^ k))]. split; [reflexivity|]. split; [reflexivity|]. intros i t Hi _. rewrite (one_joint i t Hi). unfold slip_q. cbn -[pow Rabs]. cbn [pow].
    unfold Rabs. destruct (Rcase_abs _); lra.
  - intros k. destruct (pull_data (1 / 2) (1 + 1 / 5 * (1 - (1 / 2) ^ k))) as [_ A]. split; [apply pull_tidy|]. split; [apply pull_compiled|]. split; [right; now left|exact A].
  - cbn. split; apply vle_by1; lra.
  - cbn. intros [_ H]. apply vle_by1 in H. lra.
  - intros k. replace (1 - 1 * (1 / 2)) with (1 / 2) by lra. unfold slack, sel_pos, slip_q. cbn -[pow]. cbn [pow]. lra.
Qed.

(** Binary32: two thirds of the way that is allowed, step 1/2, starting at 0. *)
Fixpoint thirds (k : nat) : R := match k with 0%nat => 0 | S k => fl32 (thirds k + fl32 (1 / 2 * (2 / 3 * (1 - thirds k)))) end.
Lemma tiny : 0 < / 2 ^ 24 <= / 1000000 /\ 0 < / 2 ^ 150 <= / 1000000.
Proof.
  split; (split; [apply Rinv_0_lt_compat, pow_lt; lra|]); apply Rinv_le_contravar; try lra.
Qed.
Lemma thirds_range k : -1 <= thirds k <= 1 + 1 / 10.
Proof.
  induction k as [|k IH]; [cbn; lra|]. cbn [thirds]. set (x := thirds k) in *. pose proof (fl32_step x (1 / 2 * (2 / 3 * (1 - x))) 2 1) as E. pose proof tiny as [T1 T2].
  assert (A1 : Rabs x <= 2) by (unfold Rabs; destruct (Rcase_abs x); lra). assert (A2 : Rabs (1 / 2 * (2 / 3 * (1 - x))) <= 1) by (unfold Rabs; destruct (Rcase_abs _); lra).
  specialize (E A1 A2). apply Rabs_le_inv in E. assert (D : (2 + 3 * 1) / 2 ^ 24 + 3 / 2 ^ 150 <= 1 / 100) by (unfold Rdiv; lra).
  set (y := fl32 (x + fl32 (1 / 2 * (2 / 3 * (1 - x))))) in *. set (e := (2 + 3 * 1) / 2 ^ 24 + 3 / 2 ^ 150) in *. clearbody e y. lra.
Qed.
Lemma fl32_third : fl32 (1 / 3) <> 1 / 3.
Proof.
  intros H. assert (P : Prec_gt_0 24) by reflexivity. assert (F : FLT_format radix2 (-149) 24 (1 / 3)). { apply FLT_format_generic; [exact P|]. rewrite <- H. apply generic_format_round; [apply FLT_exp_valid, P|apply valid_rnd_N]. }
  destruct F as [[n e] E _ Ee]. cbn in Ee. unfold F2R in E. cbn [Fnum Fexp] in E.
  assert (K : IZR (3 * (n * 2 ^ (e + 149))) = IZR (2 ^ 149)).
  { rewrite !mult_IZR. change 2%Z with (radix_val radix2). rewrite !IZR_Zpower by lia. rewrite bpow_plus. replace (3 * (IZR n * (bpow radix2 e * bpow radix2 149))) with (3 * (IZR n * bpow radix2 e) * bpow radix2 149) by ring. rewrite <- E. lra. }
  apply eq_IZR in K. assert (M : ((2 ^ 149) mod 3 = 0)%Z) by (rewrite <- K, Z.mul_comm; apply Z.mod_mul; discriminate). vm_compute in M. discriminate M.
Qed.
Lemma fl32_0 : fl32 0 = 0. Proof. apply round_0. apply valid_rnd_N. Qed.
Definition thirds_q (k : nat) : vec := [thirds k].
Definition thirds_v (k : nat) : vec := [2 / 3 * (1 - thirds k)].
Lemma thirds_case : let pd := pull_pd (1 / 2) in fl32_loop (1 / 10) even_lib one (fun _ => pd) (1 / 2) thirds_q thirds_v /\
  (forall k, tidy one (pull_prog (1 / 2)) /\ compiled_by (pull_prog (1 / 2)) 0 pd /\ In lim1_j (comps_of pd) /\ Forall (accepted even_lib (update even_lib one (thirds_q k))) (comps_of pd) /\ at_most 4 (jd_vmin pd) /\ at_most 4 (jd_vmax pd)) /\ sound_lib even_lib one /\
  joint_barrier None lim1_j /\ has_limits lim1_j [-1] [1] /\ at_most 1 [-1] /\ at_most 1 [1] /\ keeps_scalars even_lib one /\ (forall x, j_gain_fn lim1_j x = x) /\ Forall (fun a => 1 <= a /\ a * (1 / 2) <= 1) (j_gain lim1_j) /\
  (let w := 1 / 10 + 1 / 10000 in 1 / 10 * (1 / 2) + (1 + w + 3 * (1 / 2 * (4 + 1 / 10))) / 2 ^ 24 + 3 / 2 ^ 150 <= 1 * (1 / 2) * w /\ within_by w [-1] [1] (sel_pos one None (thirds_q 0))) /\
  forall x, integrate one (thirds_q 0) (thirds_v 0) (1 / 2) = Ok x -> x <> thirds_q 1.
Proof.
  destruct lim1_case as (_ & _ & _ & D & E & F & G & _). pose proof tiny as [T1 T2]. cbv zeta. split; [|split; [|split; [apply even_sound|split; [exact D|split; [exact E|split; [|split; [|split; [apply even_keeps|split; [exact F|split; [|split; [split|]]]]]]]]]]].
  - intros k. pose proof (thirds_range k) as P. split; [reflexivity|]. split; [apply (pull_nearly (1 / 2) (1 / 10) (thirds k)); eexists; split; [reflexivity|lra]|]. intros i t Hi _. rewrite (one_joint i t Hi). reflexivity.
  - intros k. destruct (pull_data (1 / 2) (thirds k)) as [_ A]. split; [apply pull_tidy|]. split; [apply pull_compiled|]. split; [right; now left|]. split; [exact A|]. cbn. unfold at_most. split; constructor; try constructor; unfold Rabs; destruct (Rcase_abs _); lra.
  - constructor; [|constructor]. unfold Rabs; destruct (Rcase_abs _); lra.
  - constructor; [|constructor]. unfold Rabs; destruct (Rcase_abs _); lra.
  - rewrite G. repeat (constructor; [lra|]). constructor.
  - unfold Rdiv at 2 5 8. unfold Rdiv in *. lra.
  - cbn. split; apply vle_by1; lra.
  - intros x Hx. cbn in Hx. injection Hx as <-. intros K. unfold thirds_q in K. cbn [thirds] in K. injection K as K. apply fl32_third.
    replace (1 / 2 * (2 / 3 * (1 - 0))) with (1 / 3) in K by field. rewrite !Rplus_0_l in K. replace (1 / 3) with (fl32 (fl32 (1 / 3))) at 2 by (symmetry; exact K). unfold fl32 at 1 2. symmetry. apply round_generic; [apply valid_rnd_N|]. apply generic_format_round; [apply FLT_exp_valid; reflexivity|apply valid_rnd_N].
Qed.
(** An arm with limits up to 3 rad, 5 rad/s, dt = 10 ms, gain 10 and a solver tolerance of 1e-5:
    three microradians. *)
Lemma microradians : let w := 3 / 1000000 in 1 / 100000 * (1 / 100) + (3 + w + 3 * (1 / 100 * (5 + 1 / 100000))) / 2 ^ 24 + 3 / 2 ^ 150 <= 10 * (1 / 100) * w.
Proof.
  cbv zeta. assert (A : / 2 ^ 24 <= / 16777216) by (apply Rinv_le_contravar; lra). assert (B : / 2 ^ 150 <= / 1000000000000).
  { apply Rinv_le_contravar; [lra|]. apply Rle_trans with (2 ^ 40); [lra|]. apply Rle_pow; [lra|lia]. } pose proof tiny as [T1 T2]. unfold Rdiv in *. lra.
Qed.
