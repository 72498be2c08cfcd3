(** Closed-loop proofs. *)
From Verif Require Import Base Lin LinFacts Mjx Typing Component Problem SpecComponent ComponentFacts ComponentFacts2 SpecJoint SpecHistory JointFacts BindFacts BindFacts3 Rot Conf FrameJac Collide JaxComponents LocalIK SpecQP QPFacts QPThms QPThms2 QPThms3 QPThms4 SpecMotion MotionFacts MotionFacts2 SpecLoop.
Open Scope R_scope.

Lemma cbf_step (gain e J : vec) dt : 0 <= dt -> List.length gain = List.length e ->
  Forall (fun a => 0 <= a * dt <= 1) gain -> vle (vneg (vmul gain (map (fun x => x) e))) J ->
  vle (vmul (map (fun a => 1 - a * dt) gain) e) (vadd e (vscale dt J)).
Proof.
  intros Hdt. revert e J. unfold vle, vneg, vmul, vadd, vscale, vmap2.
  induction gain as [|a gain IH]; intros [|x e] J Hl Hg H; try discriminate; [constructor|]. cbn in *.
  inversion H; subst. inversion Hg; subst. cbn. constructor.
  - apply (Rmult_le_compat_l dt) in H2; [|exact Hdt]. lra.
  - apply IH; auto. 
Qed.
Lemma vmul_mono (a x y : vec) : Forall (fun k => 0 <= k) a -> vle x y -> List.length a = List.length x -> vle (vmul a x) (vmul a y).
Proof.
  unfold vle, vmul, vmap2. revert x y. induction a as [|k a IH]; intros x y Ha H Hl; [constructor|].
  destruct H; [discriminate|]. cbn. inversion Ha; subst. constructor; [cbn; now apply Rmult_le_compat_l|]. apply IH; auto.
Qed.
Lemma vle_refl' x : vle x x. Proof. unfold vle. induction x; constructor; auto with real. Qed.
Lemma vle_trans' x y z : vle x y -> vle y z -> vle x z.
Proof.
  unfold vle. intros H. revert z. induction H; intros z Hz; inversion Hz; subst; constructor; [lra|auto].
Qed.
Lemma vnonneg_vle x y : vle x y -> vnonneg x -> vnonneg y.
Proof. unfold vle, vnonneg. induction 1; intros G; inversion G; subst; constructor; [lra|auto]. Qed.
Lemma vnonneg_vmul a x : Forall (fun k => 0 <= k) a -> vnonneg x -> vnonneg (vmul a x).
Proof.
  unfold vnonneg, vmul, vmap2. revert x. induction a as [|k a IH]; intros [|y x] Ha Hx; cbn; constructor; inversion Ha; inversion Hx; subst; auto.
  cbn. now apply Rmult_le_pos.
Qed.
Lemma decay_nonneg gain dt k : Forall (fun a => 0 <= a * dt <= 1) gain -> Forall (fun x => 0 <= x) (decay gain dt k).
Proof. intros H. unfold decay. rewrite Forall_map. eapply Forall_impl; [|exact H]. intros a Ha. cbn. apply pow_le. lra. Qed.
Lemma decay_length gain dt k : List.length (decay gain dt k) = List.length gain.
Proof. apply map_length. Qed.

Lemma barrier_is fm j : joint_barrier fm j -> is_barrier j = true.
Proof. intros H. apply joint_barrier_facts in H as (_ & _ & _ & _ & _ & s & lo & hi & He). unfold is_barrier. now rewrite He. Qed.

Lemma limits_invariant L fm j lo hi pd dt (q v : nat -> vec) : let m := jd_model pd in
  joint_barrier fm j -> In j (comps_of pd) -> j_model j = m -> has_limits j lo hi ->
  List.length lo = List.length (selected m fm) -> List.length hi = List.length (selected m fm) ->
  List.length (jd_vmin pd) = m_nv m -> List.length (jd_vmax pd) = m_nv m ->
  keeps_scalars L m -> (forall k, Forall (well_shaped L (m_nv m) (update L m (q k))) (comps_of pd)) ->
  (forall x, j_gain_fn j x = x) -> 0 <= dt -> Forall (fun a => 0 <= a * dt <= 1) (j_gain j) ->
  safe_loop L m pd dt q v ->
  (forall k, vle (vmul (decay (j_gain j) dt k) (slack lo hi (sel_pos m fm (q 0%nat)))) (slack lo hi (sel_pos m fm (q k)))) /\
  (within lo hi (sel_pos m fm (q 0%nat)) -> forall k, within lo hi (sel_pos m fm (q k))).
Proof.
  intros m Hj Hin Hm Hl L1 L2 V1 V2 Hk Hw Hid Hdt Hg [Q0 Hs]. rewrite <- Hm in L1, L2.
  assert (Lq : forall k, List.length (q k) = m_nq m).
  { induction k as [|k IH]; [exact Q0|]. destruct (Hs k) as (Q & _ & Lv & _ & Hi). rewrite <- Hm in *.
    destruct (joint_barrier_motion fm j lo hi Hj Hl L (q k) (update L (j_model j) (q k)) IH (Hk _ IH) L1 L2) as (J & _ & _ & _ & _ & _ & M).
    destruct (M (v k) dt Lv) as (q' & Hi' & Lq' & _). rewrite Hi in Hi'. injection Hi' as <-. exact Lq'. }
  set (h := fun k => slack lo hi (sel_pos m fm (q k))).
  assert (ST : forall k, List.length (j_gain j) = List.length (h k) /\ vle (vmul (map (fun a => 1 - a * dt) (j_gain j)) (h k)) (h (S k)) /\ (vnonneg (h k) <-> within lo hi (sel_pos m fm (q k)))).
  { intros k. destruct (Hs k) as (Q & HQ & Lv & Hi & Hn). pose proof (Hk _ (Lq k)) as Ha. pose proof (Lq k) as Lk.
    apply (ineq_iff L m pd (update L m (q k)) Q eq_refl HQ (Hw k) (v k) Lv V1 V2) in Hi. destruct Hi as (_ & _ & Hc).
    rewrite Forall_forall in Hc. specialize (Hc j). rewrite filter_In in Hc. specialize (Hc (conj Hin (barrier_is _ _ Hj))).
    assert (Ha' : agrees (j_model j) (q k) (d_qpos (update L m (q k)))) by (rewrite Hm; exact Ha). rewrite <- Hm in Lk, Lv.
    destruct (joint_barrier_motion fm j lo hi Hj Hl L (q k) (update L m (q k)) Lk Ha' L1 L2) as (J & Ec & EJ & Enn & _ & Eg & M).
    rewrite Hm in Ec, Enn, Eg. split; [exact Eg|]. split; [|exact Enn].
    destruct (M (v k) dt Lv) as (q' & Hi' & _ & Es & _). rewrite Hm, Hn in Hi'. injection Hi' as <-. rewrite Hm in Es.
    unfold h at 2. rewrite Es. apply cbf_step; auto. specialize (Hc J _ EJ Ec). unfold gained in Hc. rewrite (map_ext _ (fun x => x)) in Hc by exact Hid. exact Hc. }
  assert (D : forall k, vle (vmul (decay (j_gain j) dt k) (h 0%nat)) (h k)).
  { induction k as [|k IH].
    - unfold decay. rewrite vmul_one by apply ST. apply vle_refl'.
    - destruct (ST k) as (G & S1 & _). eapply vle_trans'; [|exact S1]. unfold decay. rewrite <- vmul_pow by apply ST. apply vmul_mono.
      + rewrite Forall_map. eapply Forall_impl; [|exact Hg]. intros a Ha. cbn. lra.
      + exact IH.
      + unfold vmul, vmap2. rewrite !map_length, combine_length, map_length. destruct (ST 0%nat) as [-> _]. symmetry. apply Nat.min_id. }
  split; [exact D|]. intros W0 k. apply ST. eapply vnonneg_vle; [apply D|]. apply vnonneg_vmul; [now apply decay_nonneg|]. now apply ST.
Qed.

Lemma nth_vsub (a b : vec) i : List.length a = List.length b -> nth i (vsub a b) 0 = nth i a 0 - nth i b 0.
Proof.
  unfold vsub, vmap2. revert b i. induction a as [|x a IH]; intros [|y b] [|i] H; try discriminate; cbn; try ring. apply IH. now injection H.
Qed.
Lemma mv_vzero A n : mv A (vzero n) = vzero (List.length A).
Proof. unfold mv. induction A as [|r A IH]; [reflexivity|]. cbn. rewrite IH, dot_vzero_r. reflexivity. Qed.

(** ** Convergence of a joint task *)
Lemma task_converges L fm j t m dt (q v : nat -> vec) :
  joint_task fm j -> j_model j = m -> has_target j t -> keeps_scalars L m -> (forall x, j_gain_fn j x = x) ->
  task_loop L m j dt q v ->
  forall k, vsub (sel_pos m fm (q k)) t = vmul (decay (j_gain j) dt k) (vsub (sel_pos m fm (q 0%nat)) t).
Proof.
  intros Hj <- Ht Hk Hid [Q0 Hs].
  assert (ST : forall k, List.length (q k) = m_nq (j_model j) -> List.length (j_gain j) = List.length (vsub (sel_pos (j_model j) fm (q k)) t) /\
     List.length (q (S k)) = m_nq (j_model j) /\
     vsub (sel_pos (j_model j) fm (q (S k))) t = vmul (map (fun a => 1 - a * dt) (j_gain j)) (vsub (sel_pos (j_model j) fm (q k)) t)).
  { intros k Lq. destruct (Hs k) as (J & e & EJ & Ee & Lv & Hv & Hi).
    destruct (joint_task_motion fm j t Hj Ht L (q k) (update L (j_model j) (q k)) Lq (Hk _ Lq)) as (J' & Ec & EJ' & _ & _ & Eg & M).
    rewrite EJ in EJ'. injection EJ' as <-. rewrite Ee in Ec. injection Ec as ->. split; [exact Eg|].
    destruct (M (v k) dt Lv) as (_ & q' & Hi' & Lq' & Es & _). rewrite Hi in Hi'. injection Hi' as <-. split; [exact Lq'|].
    rewrite Es, Hv. unfold gained. rewrite (map_ext _ (fun x => x)) by exact Hid. now apply decay_step. }
  assert (Lq : forall k, List.length (q k) = m_nq (j_model j)) by (induction k; [exact Q0|now apply ST]).
  induction k as [|k IH].
  - symmetry. apply vmul_one. apply ST, Q0.
  - destruct (ST k (Lq k)) as (_ & _ & ->). rewrite IH. unfold decay. apply vmul_pow. now apply ST.
Qed.
Lemma pow_conv x : -1 < x < 1 -> Un_cv (fun k => x ^ k) 0.
Proof.
  intros H e He. assert (A : Rabs x < 1) by (apply Rabs_def1; lra). destruct (pow_lt_1_zero x A e He) as [N HN].
  exists N. intros n Hn. unfold R_dist. rewrite Rminus_0_r. now apply HN.
Qed.
Lemma nth_vmul_decay (gain e : vec) dt k i : List.length gain = List.length e -> (i < List.length e)%nat ->
  nth i (vmul (decay gain dt k) e) 0 = (1 - nth i gain 0 * dt) ^ k * nth i e 0.
Proof.
  unfold vmul, vmap2, decay. revert e i. induction gain as [|a gain IH]; intros [|x e] [|i] H Hi; cbn in *; try lia; [reflexivity|].
  apply IH; lia.
Qed.
Lemma task_tends L fm j t m dt (q v : nat -> vec) :
  joint_task fm j -> j_model j = m -> has_target j t -> keeps_scalars L m -> (forall x, j_gain_fn j x = x) ->
  task_loop L m j dt q v -> Forall (fun a => 0 < a * dt < 2) (j_gain j) ->
  forall i, (i < List.length (selected m fm))%nat -> Un_cv (fun k => nth i (sel_pos m fm (q k)) 0) (nth i t 0).
Proof.
  intros Hj Hm Ht Hk Hid Hl Hg i Hi. pose proof (task_converges L fm j t m dt q v Hj Hm Ht Hk Hid Hl) as C.
  destruct Hl as [Q0 _]. subst m.
  destruct (joint_task_motion fm j t Hj Ht L (q 0%nat) (update L (j_model j) (q 0%nat)) Q0 (Hk _ Q0)) as (J & _ & _ & Lt & _ & Eg & _).
  set (e0 := vsub (sel_pos (j_model j) fm (q 0%nat)) t) in *. assert (Le : List.length e0 = List.length t) by (unfold e0; rewrite vsub_length; rewrite ?sel_pos_length; congruence).
  assert (N : forall k, nth i (sel_pos (j_model j) fm (q k)) 0 = nth i t 0 + (1 - nth i (j_gain j) 0 * dt) ^ k * nth i e0 0).
  { intros k. rewrite <- nth_vmul_decay by (congruence || lia). rewrite <- C, nth_vsub by (rewrite sel_pos_length; lia || congruence). lra. }
  assert (B : -1 < 1 - nth i (j_gain j) 0 * dt < 1).
  { rewrite Forall_forall in Hg. specialize (Hg (nth i (j_gain j) 0)). assert (0 < nth i (j_gain j) 0 * dt < 2) by (apply Hg, nth_In; congruence || lia). lra. }
  apply pow_conv in B. intros eps He.
  assert (K : 0 < eps / (Rabs (nth i e0 0) + 1)) by (apply Rdiv_lt_0_compat; [exact He|pose proof (Rabs_pos (nth i e0 0)); lra]).
  destruct (B _ K) as [Nn HN]. exists Nn. intros n Hn. specialize (HN n Hn). unfold R_dist in *. rewrite N, Rminus_0_r in *.
  replace (nth i t 0 + (1 - nth i (j_gain j) 0 * dt) ^ n * nth i e0 0 - nth i t 0) with ((1 - nth i (j_gain j) 0 * dt) ^ n * nth i e0 0) by ring.
  rewrite Rabs_mult. pose proof (Rabs_pos (nth i e0 0)) as P. 
  apply Rle_lt_trans with (Rabs ((1 - nth i (j_gain j) 0 * dt) ^ n) * (Rabs (nth i e0 0) + 1)).
  - apply Rmult_le_compat_l; [apply Rabs_pos|lra].
  - apply (Rmult_lt_compat_r (Rabs (nth i e0 0) + 1)) in HN; [|lra]. eapply Rlt_le_trans; [exact HN|]. right. field. lra.
Qed.

(** ** Such velocities exist, and they are the optimum of the task *)
Fixpoint put (n : nat) (is : list nat) (y : vec) : vec :=
  match is, y with
  | i :: is', y0 :: y' => let v := put n is' y' in firstn i v ++ y0 :: skipn (S i) v
  | _, _ => vzero n
  end.
Lemma put_spec n (is : list nat) (y : vec) : NoDup is -> Forall (fun i => (i < n)%nat) is -> List.length y = List.length is ->
  List.length (put n is y) = n /\ map (fun i => nth i (put n is y) 0) is = y.
Proof.
  revert y. induction is as [|i is IH]; intros [|y0 y] Hd Hb Hl; try discriminate.
  - cbn. split; [apply vzero_length|reflexivity].
  - inversion Hd; subst. inversion Hb; subst. destruct (IH y) as (Lv & Ev); auto. cbn [put]. set (v := put n is y) in *. clearbody v. cbv zeta.
    split.
    + rewrite app_length. cbn [List.length]. rewrite firstn_length, skipn_length. lia.
    + assert (N : forall k, nth k (firstn i v ++ y0 :: skipn (S i) v) 0 = if Nat.eqb k i then y0 else nth k v 0).
      { intros k. destruct (Nat.eqb_spec k i) as [->|Ne].
        - rewrite app_nth2; rewrite firstn_length; [|lia]. replace (i - Nat.min i (List.length v))%nat with 0%nat by lia. reflexivity.
        - destruct (Nat.lt_ge_cases k i) as [C|C].
          + rewrite app_nth1 by (rewrite firstn_length; lia). rewrite <- (firstn_skipn i v) at 2. rewrite app_nth1; [reflexivity|rewrite firstn_length; lia].
          + rewrite app_nth2; rewrite firstn_length; [|lia]. replace (k - Nat.min i (List.length v))%nat with (S (k - S i)) by lia. cbn [nth].
            rewrite nth_skipn. f_equal. lia. }
      cbn [map]. rewrite N, Nat.eqb_refl. f_equal. transitivity (map (fun i => nth i v 0) is); [|exact Ev]. apply map_ext_in. intros k Hk. rewrite N.
      destruct (Nat.eqb_spec k i) as [->|]; [contradiction|reflexivity].
Qed.
Lemma sorted_nodup (l : list nat) : StronglySorted lt l -> NoDup l.
Proof.
  induction 1 as [|a l _ IH F]; constructor; [|exact IH]. intros Hin. rewrite Forall_forall in F. specialize (F a Hin). lia.
Qed.
(** A velocity that drives the task, chosen explicitly. *)
Definition drive (j : jaxc) (fm : option (list Z)) (t q : vec) : vec :=
  let m := j_model j in put (m_nv m) (map (dof_of m) (selected m fm)) (vneg (gained j (vsub (sel_pos m fm q) t))).
Lemma drive_spec L fm j t q : joint_task fm j -> has_target j t -> let m := j_model j in List.length q = m_nq m -> keeps_scalars L m ->
  let v := drive j fm t q in
  exists J e, List.length v = m_nv m /\ jacobian L j (update L m q) = Ok J /\ call L j (update L m q) = Ok e /\ mv J v = vneg (gained j e).
Proof.
  intros Hj Ht m Hq Hk v. destruct (joint_task_motion fm j t Hj Ht L q (update L m q) Hq (Hk q Hq)) as (J & Ec & EJ & Lt & _ & Eg & M).
  fold m in Ec, EJ, Lt, Eg, M. apply joint_task_facts in Hj as (Hw & _). fold m in Hw.
  assert (Le : List.length (vsub (sel_pos m fm q) t) = List.length (selected m fm)) by (rewrite vsub_length; rewrite ?sel_pos_length; auto).
  destruct (put_spec (m_nv m) (map (dof_of m) (selected m fm)) (vneg (gained j (vsub (sel_pos m fm q) t)))) as (Lv & Ev).
  - apply sorted_nodup. now apply selected_dof_sorted.
  - now apply dofs_in.
  - rewrite vneg_length. unfold gained, vmul, vmap2. rewrite !map_length, combine_length, map_length. lia.
  - fold (drive j fm t q) in Lv, Ev. fold v in Lv, Ev. exists J, (vsub (sel_pos m fm q) t). split; [exact Lv|]. split; [exact EJ|]. split; [exact Ec|].
    destruct (M v 0 Lv) as [-> _]. rewrite <- Ev. unfold sel_vel. rewrite map_map. reflexivity.
Qed.
Lemma velocity_exists L fm j t q : joint_task fm j -> has_target j t -> let m := j_model j in List.length q = m_nq m -> keeps_scalars L m ->
  exists v J e, List.length v = m_nv m /\ jacobian L j (update L m q) = Ok J /\ call L j (update L m q) = Ok e /\ mv J v = vneg (gained j e).
Proof. intros Hj Ht m Hq Hk. exists (drive j fm t q). now apply drive_spec. Qed.
Definition next (j : jaxc) (fm : option (list Z)) (t : vec) (dt : R) (q : vec) : vec :=
  match integrate (j_model j) q (drive j fm t q) dt with Ok q' => q' | Err _ => q end.
Lemma loop_exists L fm j t dt q0 : joint_task fm j -> has_target j t -> let m := j_model j in List.length q0 = m_nq m -> keeps_scalars L m ->
  exists q v, q 0%nat = q0 /\ task_loop L m j dt q v.
Proof.
  intros Hj Ht m Hq Hk. set (q := fun k => Nat.iter k (next j fm t dt) q0).
  assert (ST : forall x, List.length x = m_nq m -> exists J e, jacobian L j (update L m x) = Ok J /\ call L j (update L m x) = Ok e /\
     List.length (drive j fm t x) = m_nv m /\ mv J (drive j fm t x) = vneg (gained j e) /\ integrate m x (drive j fm t x) dt = Ok (next j fm t dt x) /\ List.length (next j fm t dt x) = m_nq m).
  { intros x Lx. destruct (drive_spec L fm j t x Hj Ht Lx Hk) as (J & e & Lv & EJ & Ee & Ev). exists J, e. repeat (split; [assumption|]).
    destruct (joint_task_motion fm j t Hj Ht L x (update L m x) Lx (Hk x Lx)) as (J' & _ & _ & _ & _ & _ & M).
    destruct (M (drive j fm t x) dt Lv) as (_ & q' & Hi & Lq & _). unfold next. rewrite Hi. now split. }
  exists q, (fun k => drive j fm t (q k)). split; [reflexivity|]. split; [exact Hq|].
  assert (Lq : forall k, List.length (q k) = m_nq m) by (induction k; [exact Hq|]; destruct (ST (q k) IHk) as (J & e & _ & _ & _ & _ & _ & N); exact N).
  intros k. destruct (ST (q k) (Lq k)) as (J & e & A & B & C & D & E & _). exists J, e. repeat (split; [assumption|]). exact E.
Qed.
Lemma sq_zero v : sq v = 0 -> v = vzero (List.length v).
Proof.
  unfold sq. induction v as [|x v IH]; intros H; [reflexivity|]. rewrite dot_cons in H.
  assert (0 <= x * x) by (pose proof (Rle_0_sqr x); unfold Rsqr in *; lra). assert (0 <= dot v v) by apply dot_self_nonneg.
  cbn. f_equal; [nra|]. apply IH. lra.
Qed.
Lemma vadd_zero_neg (a b : vec) : List.length a = List.length b -> vadd a b = vzero (List.length a) -> a = vneg b.
Proof.
  unfold vadd, vneg, vmap2. revert b. induction a as [|x a IH]; intros [|y b] H E; try discriminate; [reflexivity|].
  cbn in *. injection E as E1 E2. f_equal; [lra|]. apply IH; [now injection H|exact E2].
Qed.
Lemma optimum_velocity L fm j t W k q v : joint_task fm j -> has_target j t -> let m := j_model j in
  j_ext j = JTask W 0 k -> (forall x, List.length x = List.length (selected m fm) -> mv W x = vzero (List.length (mv W x)) -> x = vzero (List.length (selected m fm))) ->
  List.length q = m_nq m -> keeps_scalars L m -> unconstrained_optimum L m (update L m q) j v ->
  exists J e, jacobian L j (update L m q) = Ok J /\ call L j (update L m q) = Ok e /\ mv J v = vneg (gained j e).
Proof.
  intros Hj Ht m He Hinj Hq Hk [Lv Ho]. destruct (velocity_exists L fm j t q Hj Ht Hq Hk) as (w & J & e & Lw & EJ & Ee & Ew). fold m in EJ, Ee, Lw.
  exists J, e. split; [exact EJ|]. split; [exact Ee|].
  destruct (joint_task_motion fm j t Hj Ht L q (update L m q) Hq (Hk q Hq)) as (J' & Ec & EJ' & Lt & [MJ _] & Eg & _). fold m in EJ', Ec, Lt, MJ, Eg.
  rewrite EJ in EJ'. injection EJ' as <-. rewrite Ee in Ec. injection Ec as Ec. rewrite <- Ec in *.
  assert (Le : List.length e = List.length (selected m fm)) by (rewrite Ec, vsub_length; rewrite ?sel_pos_length; auto).
  assert (LG : List.length (gained j e) = List.length e) by (unfold gained, vmul, vmap2; rewrite !map_length, combine_length, map_length; lia).
  specialize (Ho _ w _ (cost_task L _ j v W 0 k J e He EJ Ee) Lw (cost_task L _ j w W 0 k J e He EJ Ee)).
  assert (Z : vadd (mv J w) (gained j e) = vzero (List.length e)).
  { rewrite Ew. rewrite <- LG. generalize (gained j e). intros g. unfold vadd, vneg, vmap2. induction g as [|x g IH]; [reflexivity|]. cbn. rewrite IH. f_equal. ring. }
  rewrite Z, mv_vzero in Ho. 
  assert (S0 : sq (vzero (List.length W)) = 0) by (unfold sq; apply dot_vzero_l). rewrite S0 in Ho.
  pose proof (dot_self_nonneg (mv W (vadd (mv J v) (gained j e)))) as P. fold (sq (mv W (vadd (mv J v) (gained j e)))) in P.
  assert (Q : sq (mv W (vadd (mv J v) (gained j e))) = 0) by lra. apply sq_zero in Q. apply Hinj in Q.
  - apply vadd_zero_neg; [rewrite mv_length; congruence|]. rewrite Q, mv_length. congruence.
  - assert (LJ : List.length (mv J v) = List.length (gained j e)) by (rewrite mv_length; congruence). rewrite vadd_length by exact LJ. congruence.
Qed.
