(** Barriers and hard constraints in discrete time. *)
From Verif Require Import Base Lin LinFacts Mjx Typing Component Problem SpecComponent ComponentFacts ComponentFacts2 SpecJoint SpecHistory JointFacts BindFacts BindFacts3 SpecProblem SpecShape SpecFit SpecValue Rot Conf FrameJac Collide JaxComponents LocalIK SpecQP QPFacts QPThms QPThms2 QPThms3 QPThms4 SpecMotion MotionFacts MotionFacts2 SpecLoop LoopFacts FitThms FitFacts FitFacts3 SpecSolve SolveFacts SolveThms SpecDescent DescentFacts2 DescentThms2 SpecClosed SpecTol TolFacts TolThms SpecStep.
Open Scope R_scope.

Lemma taylor1 a b dt M (h h' : R -> R) : a < 0 -> 0 < dt -> dt < b -> (forall t, a < t < b -> derivable_pt_lim h t (h' t)) -> (forall t, 0 <= t <= dt -> Rabs (h' t - h' 0) <= M * t) ->
  Rabs (h dt - h 0 - dt * h' 0) <= M * dt * dt / 2.
Proof.
  intros Ha Hd Hb D H.
  assert (G : forall s, s = 1 \/ s = -1 -> s * (h dt - h 0 - dt * h' 0) <= M * dt * dt / 2).
  { intros s Hs. set (f := fun t => s * (h t - h' 0 * t) - M / 2 * (t * t)).
    assert (Df : forall c, 0 <= c <= dt -> derivable_pt_lim f c (s * (h' c - h' 0) - M * c)).
    { intros c Hc. replace (s * (h' c - h' 0) - M * c) with (s * (h' c - h' 0 * 1) - M / 2 * (1 * c + c * 1)) by field.
      apply derivable_pt_lim_minus; [apply derivable_pt_lim_scal with (f := fun t => h t - h' 0 * t); apply derivable_pt_lim_minus; [apply D; lra|apply derivable_pt_lim_scal, derivable_pt_lim_id]|].
      apply derivable_pt_lim_scal with (f := fun t => t * t). apply (derivable_pt_lim_mult id id); apply derivable_pt_lim_id. }
    destruct (MVT_cor2 f (fun c => s * (h' c - h' 0) - M * c) 0 dt Hd) as (c & E & Hc); [intros; now apply Df|].
    specialize (H c ltac:(lra)). assert (H2 : - (M * c) <= h' c - h' 0 <= M * c) by (unfold Rabs in H; destruct (Rcase_abs _) in H; lra). unfold f in E. assert (s * (h' c - h' 0) - M * c <= 0) by (destruct Hs as [-> | ->]; lra).
    assert ((s * (h' c - h' 0) - M * c) * (dt - 0) <= 0) by (pose proof (Rmult_le_compat_r (dt - 0) _ 0 ltac:(lra) H0) as K; lra). lra. }
  pose proof (G 1 (or_introl eq_refl)). pose proof (G (-1) (or_intror eq_refl)). unfold Rabs. destruct (Rcase_abs _); lra.
Qed.

(** One step of one component. *)
Lemma held_step L m os pi pd j eps M dt q v q' ds : tidy m os -> compiled_by os pi pd -> sound_lib L m -> In j (comps_of pd) ->
  wf_data m (update L m q) -> Forall (accepted L (update L m q)) (comps_of pd) -> (forall x, j_gain_fn j x = x) -> 0 < dt ->
  nearly eps L (update L m q) pd v -> ds 0 = update L m q -> ds dt = update L m q' -> steady M L dt v ds j ->
  exists e e', call L j (update L m q) = Ok e /\ call L j (update L m q') = Ok e' /\ List.length e = List.length (j_gain j) /\ List.length e' = List.length (j_gain j) /\
  forall i, (i < List.length (j_gain j))%nat -> let a := nth i (j_gain j) 0 in
    (is_barrier j = true -> (1 - a * dt) * nth i e 0 - (eps + M * dt / 2) * dt <= nth i e' 0) /\
    (is_hard j = true -> Rabs (nth i e' 0 - (1 - a * dt) * nth i e 0) <= (eps + M * dt / 2) * dt).
Proof.
  intros Ht Hc HL Hin Hw Ha Hid Hdt (_ & _ & _ & HN) E0 E1 (a0 & b0 & Pa & Pb & (n & e & J & F) & HM).
  assert (W : well_shaped L (m_nv (jd_model pd)) (update L m q) j).
  { pose proof (shaped_along L m os pi pd Ht Hc HL (-1) 1 (fun _ => update L m q) (fun t _ => conj Hw Ha) 0 ltac:(lra)) as S. rewrite Forall_forall in S. exact (S j Hin). }
  destruct (F 0 ltac:(lra)) as (C0 & J0 & L0 & _). destruct (F dt ltac:(lra)) as (C1 & _ & L1 & _). rewrite E0 in C0, J0. rewrite E1 in C1.
  exists (e 0), (e dt). split; [exact C0|]. split; [exact C1|]. destruct (W _ _ J0 C0) as [_ Lg]. split; [congruence|]. split; [congruence|]. intros i Hi a.
  assert (T : Rabs (nth i (e dt) 0 - nth i (e 0) 0 - dt * nth i (mv (J 0) v) 0) <= M * dt * dt / 2).
  { apply (taylor1 a0 b0 dt M (fun t => nth i (e t) 0) (fun t => nth i (mv (J t) v) 0)); auto.
    - intros t Hti. destruct (F t Hti) as (_ & _ & _ & D). apply D. lia.
    - intros t Hti. destruct (F t ltac:(lra)) as (_ & Jt & _). rewrite <- E0 in J0. pose proof (HM t _ _ Hti J0 Jt) as K.
      destruct (Nat.lt_ge_cases i (List.length (mv (J t) v))) as [B|B]; [now apply nth_close_by|].
      assert (Q : forall x y, close_by (M * t) x y -> List.length x = List.length y) by (induction 1; cbn; congruence). rewrite !nth_overflow; [|rewrite <- (Q _ _ K); exact B|exact B].
      exfalso. rewrite E0 in J0. rewrite Forall_forall in HN. rewrite (Q _ _ K) in B. revert B. destruct (W _ _ J0 C0) as [WW _]. unfold mv. rewrite map_length. destruct WW as [WW _]. unfold vec in *. rewrite WW, <- Lg. lia. }
  rewrite Forall_forall in HN. destruct (HN j Hin) as [HB HH].
  assert (T2 : - (M * dt * dt / 2) <= nth i (e dt) 0 - nth i (e 0) 0 - dt * nth i (mv (J 0) v) 0 <= M * dt * dt / 2) by (unfold Rabs in T; destruct (Rcase_abs _) in T; lra). clear T. split; intros Hk.
  - pose proof (nth_vle_by _ _ _ i (HB Hk _ _ J0 C0) ltac:(rewrite vneg_length, gained_length by lia; lia)) as K. rewrite nth_vneg, nth_gained in K by lia. rewrite Hid in K. fold a in K.
    assert (dt * - (a * nth i (e 0) 0) <= dt * (nth i (mv (J 0) v) 0 + eps)) by (apply Rmult_le_compat_l; lra). lra.
  - pose proof (HH Hk _ _ J0 C0) as C. assert (Q : forall x y, close_by eps x y -> List.length x = List.length y) by (induction 1; cbn; congruence).
    pose proof (nth_close_by eps _ _ i C ltac:(rewrite (Q _ _ C), vneg_length, gained_length by lia; lia)) as K. rewrite nth_vneg, nth_gained in K by lia. rewrite Hid in K. fold a in K.
    assert (K2 : - eps <= nth i (mv (J 0) v) 0 - - (a * nth i (e 0) 0) <= eps) by (unfold Rabs in K; destruct (Rcase_abs _) in K; lra).
    assert (dt * (nth i (mv (J 0) v) 0 - - (a * nth i (e 0) 0)) <= dt * eps) by (apply Rmult_le_compat_l; lra).
    assert (dt * - eps <= dt * (nth i (mv (J 0) v) 0 - - (a * nth i (e 0) 0))) by (apply Rmult_le_compat_l; lra).
    unfold Rabs. destruct (Rcase_abs _); lra.
Qed.
Lemma held_loop L m os pi pd j eps M dt (q v : nat -> vec) ds :
  (forall k : nat, tidy m (os k) /\ compiled_by (os k) (pi k) (pd k) /\ In j (comps_of (pd k)) /\ wf_data m (update L m (q k)) /\ Forall (accepted L (update L m (q k))) (comps_of (pd k))) -> sound_lib L m ->
  (forall x, j_gain_fn j x = x) -> 0 < dt -> Forall (fun a => 0 < a /\ a * dt <= 1) (j_gain j) -> sampled_loop eps M L m pd dt q v ds j ->
  exists h : nat -> vec, (forall k, call L j (update L m (q k)) = Ok (h k) /\ List.length (h k) = List.length (j_gain j)) /\
  forall k i, (i < List.length (j_gain j))%nat -> let a := nth i (j_gain j) 0 in let r := (1 - a * dt) ^ k in let c := (eps + M * dt / 2) / a in
    (is_barrier j = true -> r * nth i (h 0%nat) 0 - (1 - r) * c <= nth i (h k) 0) /\
    (is_hard j = true -> Rabs (nth i (h k) 0 - r * nth i (h 0%nat) 0) <= (1 - r) * c).
Proof.
  intros Hp HL Hid Hdt Hg Hs.
  assert (ST : forall k, exists e e', call L j (update L m (q k)) = Ok e /\ call L j (update L m (q (S k))) = Ok e' /\ List.length e = List.length (j_gain j) /\ List.length e' = List.length (j_gain j) /\
    forall i, (i < List.length (j_gain j))%nat -> let a := nth i (j_gain j) 0 in
    (is_barrier j = true -> (1 - a * dt) * nth i e 0 - (eps + M * dt / 2) * dt <= nth i e' 0) /\ (is_hard j = true -> Rabs (nth i e' 0 - (1 - a * dt) * nth i e 0) <= (eps + M * dt / 2) * dt)).
  { intros k. destruct (Hp k) as (P1 & P2 & P3 & P4 & P5), (Hs k) as (S1 & S2 & S3 & S4 & S5).
    apply (held_step L m (os k) (pi k) (pd k) j eps M dt (q k) (v k) (q (S k)) (ds k)); auto. apply S4; [lra|exact S1]. }
  set (h := fun k => match call L j (update L m (q k)) with Ok e => e | Err _ => [] end). exists h.
  assert (HH : forall k, call L j (update L m (q k)) = Ok (h k) /\ List.length (h k) = List.length (j_gain j)) by (intros k; destruct (ST k) as (e & e' & E & _ & Le & _); unfold h; rewrite E; now split).
  split; [exact HH|]. intros k i Hi a r c. assert (Pa : 0 < a /\ a * dt <= 1) by (rewrite Forall_forall in Hg; apply (Hg a), nth_In, Hi).
  assert (SK : forall k, (is_barrier j = true -> (1 - a * dt) * nth i (h k) 0 - (eps + M * dt / 2) * dt <= nth i (h (S k)) 0) /\ (is_hard j = true -> Rabs (nth i (h (S k)) 0 - (1 - a * dt) * nth i (h k) 0) <= (eps + M * dt / 2) * dt)).
  { intros k0. destruct (ST k0) as (e & e' & E & E' & _ & _ & Q). destruct (HH k0) as [X _]. rewrite X in E. injection E as <-. destruct (HH (S k0)) as [X' _]. rewrite X' in E'. injection E' as <-. exact (Q i Hi). }
  assert (CC : c * (a * dt) = (eps + M * dt / 2) * dt) by (unfold c; field; lra).
  subst r. induction k as [|k [IB IHd]]; [rewrite !pow_O; split; intros _; [lra|rewrite Rabs_pos_eq; lra]|].
  replace ((1 - a * dt) ^ S k) with ((1 - a * dt) * (1 - a * dt) ^ k) by reflexivity. set (r := (1 - a * dt) ^ k) in *. destruct (SK k) as [SB SH]. rewrite <- CC in SB, SH. split; intros Hk.
  - specialize (SB Hk). specialize (IB Hk). assert ((1 - a * dt) * (r * nth i (h 0%nat) 0 - (1 - r) * c) <= (1 - a * dt) * nth i (h k) 0) by (apply Rmult_le_compat_l; lra). lra.
  - specialize (SH Hk). specialize (IHd Hk). replace (nth i (h (S k)) 0 - (1 - a * dt) * r * nth i (h 0%nat) 0) with ((nth i (h (S k)) 0 - (1 - a * dt) * nth i (h k) 0) + (1 - a * dt) * (nth i (h k) 0 - r * nth i (h 0%nat) 0)) by ring.
    eapply Rle_trans; [apply Rabs_triang|]. rewrite Rabs_mult, (Rabs_pos_eq (1 - a * dt)) by lra. assert ((1 - a * dt) * Rabs (nth i (h k) 0 - r * nth i (h 0%nat) 0) <= (1 - a * dt) * ((1 - r) * c)) by (apply Rmult_le_compat_l; lra). lra.
Qed.
(** Once above -c, always above -c. *)
Lemma held_for_ever L m os pi pd j eps M dt g (q v : nat -> vec) ds :
  (forall k : nat, tidy m (os k) /\ compiled_by (os k) (pi k) (pd k) /\ In j (comps_of (pd k)) /\ wf_data m (update L m (q k)) /\ Forall (accepted L (update L m (q k))) (comps_of (pd k))) -> sound_lib L m ->
  is_barrier j = true -> (forall x, j_gain_fn j x = x) -> 0 < dt -> 0 < g -> 0 <= eps -> 0 <= M -> Forall (fun a => g <= a /\ a * dt <= 1) (j_gain j) -> sampled_loop eps M L m pd dt q v ds j ->
  let w := (eps + M * dt / 2) / g in (forall e, call L j (update L m (q 0%nat)) = Ok e -> Forall (fun x => - w <= x) e) -> forall k e, call L j (update L m (q k)) = Ok e -> Forall (fun x => - w <= x) e.
Proof.
  intros Hp HL Hb Hid Hdt Pg Pe PM Hg Hs w H0 k e Ee. assert (Hg' : Forall (fun a => 0 < a /\ a * dt <= 1) (j_gain j)) by (eapply Forall_impl; [|exact Hg]; cbn; intros; lra).
  destruct (held_loop L m os pi pd j eps M dt q v ds Hp HL Hid Hdt Hg' Hs) as (h & HH & N). destruct (HH 0%nat) as [E0 L0], (HH k) as [Ek Lk]. rewrite Ek in Ee. injection Ee as <-. specialize (H0 _ E0).
  apply Forall_nth. intros i d Hi. rewrite (nth_indep _ d 0) by exact Hi. rewrite Lk in Hi. destruct (N k i Hi) as [B _]. specialize (B Hb). set (a := nth i (j_gain j) 0) in *. set (r := (1 - a * dt) ^ k) in *.
  assert (Pa : g <= a /\ a * dt <= 1) by (rewrite Forall_forall in Hg; apply (Hg a), nth_In, Hi). assert (S0 : - w <= nth i (h 0%nat) 0) by (rewrite Forall_forall in H0; apply H0, nth_In; lia).
  assert (P : 0 <= r <= 1). { unfold r. split; [apply pow_le; lra|]. assert (0 <= a * dt) by (apply Rmult_le_pos; lra). apply Rle_trans with (1 ^ k); [apply pow_incr; lra|rewrite pow1; lra]. }
  assert (Q0 : 0 <= eps + M * dt / 2) by (assert (0 <= M * dt) by (apply Rmult_le_pos; lra); lra).
  assert (Q1 : (eps + M * dt / 2) / a <= w) by (unfold w, Rdiv at 1 3; apply Rmult_le_compat_l; [exact Q0|]; apply Rinv_le_contravar; lra).
  assert (r * - w <= r * nth i (h 0%nat) 0) by (apply Rmult_le_compat_l; lra). assert ((1 - r) * ((eps + M * dt / 2) / a) <= (1 - r) * w) by (apply Rmult_le_compat_l; lra). lra.
Qed.
