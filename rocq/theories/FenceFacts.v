(** Splitting a position barrier into barriers over fewer axes and sides. *)
From Verif Require Import Base Lin LinFacts Mjx Typing Component Problem SpecComponent SpecJoint SpecHistory SpecProblem Rot SpecConf Conf FrameJac JaxComponents LocalIK SpecQP SpecSolve SpecMotion SpecTree SpecShape SpecFit SpecValue SpecDeriv SpecMask SpecSplit.
From Verif Require Import QPFacts QPThms QPThms3 MotionFacts2 ConfFacts3 ConfFacts4 FitFacts DerivFacts DerivThms MaskFacts MaskFacts2 SplitFacts ValueFacts ValueFacts2 MotionFacts.
From Coq Require Import Permutation.
Open Scope R_scope.

Lemma coords_app as_ bs x : coords (as_ ++ bs) x = coords as_ x ++ coords bs x.
Proof. apply map_app. Qed.
Lemma coords_left as_ (a b : vec) : Forall (fun i => (i < List.length a)%nat) as_ -> coords as_ (a ++ b) = coords as_ a.
Proof. intros F. apply map_ext_in. intros i Hi. rewrite Forall_forall in F. apply app_nth1. now apply F. Qed.
Lemma coords_right as_ (a b : vec) : coords (map (Nat.add (List.length a)) as_) (a ++ b) = coords as_ b.
Proof. unfold coords. rewrite map_map. apply map_ext. intros i. rewrite app_nth2 by lia. f_equal. lia. Qed.
Lemma coords_all n (x : vec) : List.length x = n -> coords (seq 0 n) x = x.
Proof. intros H. apply (nth_ext _ _ 0 0); [now rewrite coords_length, seq_length|]. rewrite coords_length, seq_length. intros i Hi. rewrite nth_coords by now rewrite seq_length. now rewrite seq_nth. Qed.
Lemma rows_within lt as_ : Forall (fun a => (a < 3)%nat) as_ -> Forall (fun a => (a < 6)%nat) (barrier_rows lt as_).
Proof.
  intros F. unfold barrier_rows. apply Forall_app. split; [destruct (String.eqb lt "max"); [constructor|]|destruct (String.eqb lt "min"); [constructor|]].
  - eapply Forall_impl; [|exact F]. cbn. intros; lia.
  - apply Forall_forall. intros a Ha. apply in_map_iff in Ha as (b & <- & Hb). rewrite Forall_forall in F. specialize (F b Hb). lia.
Qed.
Lemma limits_size mk on ty lt j lo hi : position_barrier mk on ty lt j -> p_limits_are lt j lo hi -> (lt <> "max"%string -> List.length lo = List.length (axes 3 mk)) /\ (lt <> "min"%string -> List.length hi = List.length (axes 3 mk)).
Proof.
  intros Hj (s2 & o2 & ty2 & l2 & h2 & li2 & E2 & A & B). destruct (position_barrier_facts _ _ _ _ _ Hj) as (_ & _ & _ & _ & lt' & sdg & lo' & hi' & i & Nm & _ & E & _ & Llo & Lhi & _). rewrite E in E2. injection E2 as <- <- <- <- <- <-.
  split; intros N; [rewrite (A N) in Llo; now apply tvec_length in Llo|rewrite (B N) in Lhi; now apply tvec_length in Lhi].
Qed.
Lemma narrow_value L rows j j' d : narrowed rows j j' -> wf_data (j_model j) d -> exists h, call L j d = Ok h /\ List.length h = 6%nat /\ call L j' d = Ok (coords rows h).
Proof.
  intros (mk & lt & on & ty & lo & hi & Hj & Hj' & Hp & Hm & -> & Hl & Hl' & Em & _) Hd. pose proof (axes_within 3 mk Hm) as Fa.
  destruct (position_barrier_value L None on ty "both" j lo hi d Hj Hp Hl Hd I) as (i & h & Hi & Eh & Lh & _ & _ & Vh & _). specialize (Vh ltac:(discriminate) ltac:(discriminate)).
  destruct (limits_size None on ty "both" j lo hi Hj Hl) as [Llo Lhi]. specialize (Llo ltac:(discriminate)). specialize (Lhi ltac:(discriminate)). cbn [axes] in *. rewrite seq_length in *.
  destruct (position_barrier_value L mk on ty lt j' _ _ d Hj' Hp Hl') as (i' & h' & Hi' & Eh' & Lh' & _ & _ & Vb & Vmin & Vmax); [now rewrite Em|exact Hm|]. rewrite Em in Hi'.
  destruct (position_barrier_facts _ _ _ _ _ Hj) as (S & _). assert (i' = i). { apply Nat2Z.inj. eapply same_object; eauto. } subst i'.
  destruct (named_object _ _ _ _ S Hp Hi) as (k & Ek & Hk). apply Nat2Z.inj in Ek. subst k. destruct (get_pos_spec _ _ _ _ Hd Hp Hk) as [_ Lp]. set (p := position d ty i) in *.
  rewrite (coords_all 3 p Lp) in Vh. assert (L1 : List.length (vsub p lo) = 3%nat) by (rewrite vsub_length; congruence). assert (L2 : List.length (vsub hi p) = 3%nat) by (rewrite vsub_length; congruence).
  exists h. split; [exact Eh|]. split; [rewrite Vh, app_length; lia|]. rewrite Eh', Vh. f_equal. unfold barrier_rows.
  assert (A : coords (axes 3 mk) (vsub p lo ++ vsub hi p) = vsub (coords (axes 3 mk) p) (coords (axes 3 mk) lo)) by (rewrite coords_left by (rewrite L1; exact Fa); apply coords_vsub; congruence).
  assert (B : coords (map (Nat.add 3) (axes 3 mk)) (vsub p lo ++ vsub hi p) = vsub (coords (axes 3 mk) hi) (coords (axes 3 mk) p)) by (rewrite <- L1, coords_right; apply coords_vsub; congruence).
  destruct (String.eqb_spec lt "max") as [->|N1]; [|destruct (String.eqb_spec lt "min") as [->|N2]].
  - cbn [String.eqb Ascii.eqb Bool.eqb app]. rewrite B. now apply Vmax.
  - rewrite app_nil_r, A. now apply Vmin.
  - rewrite coords_app, A, B. now apply Vb.
Qed.
(** Rows of an automatic Jacobian. *)
Lemma rows_jacobian_auto L as_ j j' k q J : let m := j_model j in automatic j -> automatic j' -> j_model j' = m -> Forall (fun a => (a < k)%nat) as_ ->
  (forall y e, List.length y = m_nq m -> call L j (update L m y) = Ok e -> call L j' (update L m y) = Ok (coords as_ e)) ->
  sound_jac (l_jacrev L) -> smooth L j k q -> kinematic L j -> kinematic L j' -> List.length q = m_nq m -> d_qpos (update L m q) = q -> jacobian L j (update L m q) = Ok J -> jacobian L j' (update L m q) = Ok (rows_at as_ J).
Proof.
  cbv zeta. intros Ha Ha' Em Fa Hv Hs (Ht & M & HM & HJ) Hk Hk' Hq Hd C.
  pose proof (auto_jacobian L j k q M Hs Ha Hk Hq Ht HM HJ Hd) as A. rewrite A in C.
  assert (V : forall y, List.length y = m_nq (j_model j) -> value_at L j' y = coords as_ (value_at L j y) /\ call L j' (update L (j_model j) y) = Ok (coords as_ (value_at L j y))).
  { intros y Hy. destruct (Ht y Hy) as (e & He & Le). unfold value_at. rewrite Em, He, (Hv y e Hy He). auto. }
  rewrite <- Em at 1. rewrite (auto_jacobian L j' (List.length as_) q (rows_at as_ M)); rewrite ?Em; auto.
  - now apply (to_velocity_rows k).
  - intros y Hy. eexists. split; [apply (V y Hy)|apply coords_length].
  - now apply (rows_mat k).
  - intros i Hi. rewrite rows_length in Hi. rewrite nth_rows by exact Hi. assert (Hai : (nth i as_ 0%nat < k)%nat) by (rewrite Forall_forall in Fa; apply Fa, nth_In; exact Hi).
    intros eps He. destruct (HJ (nth i as_ 0%nat) ltac:(rewrite (proj1 HM); exact Hai) eps He) as (del & Hdel & K). exists del. split; [exact Hdel|]. intros y Hy Hs'.
    destruct (V y ltac:(congruence)) as [-> _]. destruct (V q Hq) as [-> _]. rewrite !nth_coords by exact Hi. now apply K.
Qed.

Lemma vle_nth a b : List.length a = List.length b -> (vle a b <-> forall i, (i < List.length a)%nat -> nth i a 0 <= nth i b 0).
Proof.
  revert b. induction a as [|x a IH]; intros [|y b] H; try discriminate; [split; [intros _ i Hi; cbn in Hi; lia|constructor]|]. injection H as H. split.
  - intros V. inversion V; subst. intros [|i] Hi; cbn; [assumption|]. cbn in Hi. apply (proj1 (IH b H)); [assumption|lia].
  - intros V. constructor; [apply (V 0%nat); cbn; lia|]. apply IH; [exact H|]. intros i Hi. apply (V (S i)). cbn. lia.
Qed.
Lemma coords_vneg as_ x : coords as_ (vneg x) = vneg (coords as_ x).
Proof.
  unfold coords, vneg. rewrite map_map. apply map_ext. intros a. destruct (Nat.lt_ge_cases a (List.length x)) as [H|H].
  - rewrite (nth_indep _ 0 (- 0)) by now rewrite map_length. apply (map_nth Ropp).
  - rewrite !nth_overflow by (rewrite ?map_length; exact H). lra.
Qed.
Lemma vle_coords as_ a b : vle (coords as_ a) (coords as_ b) <-> forall i, In i as_ -> nth i a 0 <= nth i b 0.
Proof.
  induction as_ as [|i l IH]; [split; [intros _ i []|constructor]|]. cbn. split.
  - intros V. inversion V; subst. intros k [<-|Hk]; [assumption|]. now apply IH.
  - intros V. constructor; [apply V; now left|]. apply IH. intros k Hk. apply V. now right.
Qed.
Section Fence.
Context (L : lib) (nv : nat) (q : vec) (j : jaxc).
Let d := update L (j_model j) q.
Context (Hw : forall y, List.length y = m_nq (j_model j) -> wf_data (j_model j) (update L (j_model j) y)) (Hs : sound_jac (l_jacrev L)) (Hsm : smooth L j 6 q) (Hk : kinematic L j) (Hq : List.length q = m_nq (j_model j)) (Hd : d_qpos d = q) (Hf : fits L nv d j).
Lemma narrow_kinds rows j' : narrowed rows j j' -> automatic j /\ automatic j' /\ is_barrier j = true /\ is_hard j = false /\ is_barrier j' = true /\ is_hard j' = false /\ Forall (fun a => (a < 6)%nat) rows.
Proof.
  intros (mk & lt & on & ty & lo & hi & Hj & Hj' & Hp & Hm & -> & (s1 & o1 & ty1 & a1 & b1 & c1 & E1 & _) & (s2 & o2 & ty2 & a2 & b2 & c2 & E2 & _) & _). unfold automatic, is_barrier, is_hard. rewrite E1, E2. repeat (split; [exact I || reflexivity|]). apply rows_within, axes_within, Hm.
Qed.
Lemma narrow_jacobian rows j' J : narrowed rows j j' -> kinematic L j' -> jacobian L j d = Ok J -> jacobian L j' d = Ok (rows_at rows J).
Proof.
  intros Hn Hk' HJ. destruct (narrow_kinds rows j' Hn) as (A & A' & _ & _ & _ & _ & F). apply (rows_jacobian_auto L rows j j' 6 q J); auto.
  - destruct Hn as (mk & lt & on & ty & lo & hi & Hn). apply Hn.
  - intros y e Hy He. destruct (narrow_value L rows j j' (update L (j_model j) y) Hn (Hw y Hy)) as (h & E1 & _ & E2). congruence.
Qed.
(** The conditions of the part: those rows of the whole. *)
Lemma narrow_cbf rows j' J e v : narrowed rows j j' -> kinematic L j' -> jacobian L j d = Ok J -> call L j d = Ok e -> (cbf L d v j' <-> forall i, In i rows -> - nth i (gained j e) 0 <= nth i (mv J v) 0).
Proof.
  intros Hn Hk' HJ He. pose proof (narrow_jacobian rows j' J Hn Hk' HJ) as HJ'. destruct (narrow_kinds rows j' Hn) as (_ & _ & _ & _ & _ & _ & F). destruct (narrow_value L rows j j' d Hn (Hw q Hq)) as (h & E1 & Lh & E2). rewrite He in E1. injection E1 as <-.
  destruct Hf as (J0 & e0 & EJ0 & Ee0 & MJ & Lg & _). rewrite HJ in EJ0. injection EJ0 as <-. rewrite He in Ee0. injection Ee0 as <-. rewrite Lh in *.
  destruct Hn as (mk & lt & on & ty & lo & hi & Hn). destruct Hn as (_ & _ & _ & _ & _ & _ & _ & _ & Gg & Gf). pose proof (coords_gained 6 rows j j' e Gg Gf Lh Lg F) as G.
  assert (X : vle (vneg (gained j' (coords rows e))) (mv (rows_at rows J) v) <-> forall i, In i rows -> - nth i (gained j e) 0 <= nth i (mv J v) 0).
  { rewrite G, (mv_rows 6 rows J v (proj1 MJ) F), <- coords_vneg, vle_coords. assert (N : forall i, nth i (vneg (gained j e)) 0 = - nth i (gained j e) 0); [|split; intros V i Hi; specialize (V i Hi); rewrite N in *; exact V].
    intros i. unfold vneg. destruct (Nat.lt_ge_cases i (List.length (gained j e))) as [H|H]; [rewrite (nth_indep _ 0 (- 0)) by (rewrite map_length; exact H); apply (map_nth Ropp)|rewrite !nth_overflow by (rewrite ?map_length; exact H); lra]. }
  rewrite <- X. unfold cbf. split; [intros V; now apply V|]. intros V J1 e1 EJ1 Ee1. rewrite HJ' in EJ1. injection EJ1 as <-. rewrite E2 in Ee1. injection Ee1 as <-. exact V.
Qed.
Lemma whole_cbf J e v : List.length e = 6%nat -> jacobian L j d = Ok J -> call L j d = Ok e -> (cbf L d v j <-> forall i, (i < 6)%nat -> - nth i (gained j e) 0 <= nth i (mv J v) 0).
Proof.
  intros Le HJ He. destruct Hf as (J0 & e0 & EJ0 & Ee0 & MJ & Lg & _). rewrite HJ in EJ0. injection EJ0 as <-. rewrite He in Ee0. injection Ee0 as <-. rewrite Le in *.
  assert (Lgd : List.length (gained j e) = 6%nat) by (unfold gained; rewrite vmul_length; rewrite ?map_length; congruence).
  assert (X : vle (vneg (gained j e)) (mv J v) <-> forall i, (i < 6)%nat -> - nth i (gained j e) 0 <= nth i (mv J v) 0).
  { rewrite vle_nth by (unfold vneg; rewrite map_length, mv_length, Lgd; symmetry; apply MJ). unfold vneg at 1. rewrite map_length, Lgd.
    assert (N : forall i, (i < 6)%nat -> nth i (vneg (gained j e)) 0 = - nth i (gained j e) 0) by (intros i Hi; unfold vneg; rewrite (nth_indep _ 0 (- 0)) by (rewrite map_length, Lgd; exact Hi); apply (map_nth Ropp)).
    split; intros V i Hi; specialize (V i Hi); rewrite N in * by exact Hi; exact V. }
  rewrite <- X. unfold cbf. split; [intros V; now apply V|]. intros V J1 e1 EJ1 Ee1. congruence.
Qed.
Lemma fence_cbf parts js v : fenced_by parts j js -> Forall (kinematic L) js -> (cbf L d v j <-> Forall (cbf L d v) js).
Proof.
  intros [Hc HF] Hks. destruct Hf as (J & e & HJ & He & _).
  destruct (Hc 0%nat ltac:(lia)) as (rows0 & I0 & _). assert (N0 : exists j0, narrowed rows0 j j0). { clear - HF I0. induction HF as [|p j0 ps js H HF IH]; [destruct I0|]. destruct I0 as [->|I0]; eauto. }
  destruct N0 as (j0 & N0). destruct (narrow_value L rows0 j j0 d N0 (Hw q Hq)) as (h & E1 & Lh & _). rewrite He in E1. injection E1 as <-.
  rewrite (whole_cbf J e v Lh HJ He).
  assert (K : Forall (cbf L d v) js <-> forall rows, In rows parts -> forall i, In i rows -> - nth i (gained j e) 0 <= nth i (mv J v) 0).
  { clear Hc I0. induction HF as [|p j1 ps js H HF IH]; [split; [intros _ r []|constructor]|]. pose proof (Forall_inv Hks) as K1. specialize (IH (Forall_inv_tail Hks)). rewrite Forall_cons_iff, (narrow_cbf p j1 J e v H K1 HJ He), IH. split.
    - intros [A B] r Hr. destruct Hr as [E|Hr]; [rewrite <- E; exact A|exact (B r Hr)].
    - intros A. split; [apply A; now left|]. intros r Hr. apply A. now right. }
  rewrite K. split.
  - intros V rows Hr i Hi. apply V. assert (Nr : exists j1, narrowed rows j j1). { clear - HF Hr. induction HF as [|p j1 ps js H HF IH]; [destruct Hr|]. destruct Hr as [->|Hr]; eauto. } destruct Nr as (j1 & Nr). destruct (narrow_kinds rows j1 Nr) as (_ & _ & _ & _ & _ & _ & F). rewrite Forall_forall in F. now apply F.
  - intros V i Hi. destruct (Hc i Hi) as (rows & Hr & Hi'). exact (V rows Hr i Hi').
Qed.
End Fence.
Section Problems.
Context (L : lib) (nv : nat) (q : vec) (pd pd' : jdata) (l1 l2 js : list jaxc) (j : jaxc) (parts : list (list nat)).
Let d := update L (jd_model pd) q.
Context (Hset : same_setting pd pd') (Ec : comps_of pd = l1 ++ j :: l2) (Ec' : Permutation (comps_of pd') (l1 ++ js ++ l2)) (Hfe : fenced_by parts j js) (Mj : j_model j = jd_model pd)
 (Hw : forall y, List.length y = m_nq (jd_model pd) -> wf_data (jd_model pd) (update L (jd_model pd) y)) (Hs : sound_jac (l_jacrev L)) (Hsm : smooth L j 6 q) (Hk : kinematic L j) (Hks : Forall (kinematic L) js) (Hq : List.length q = m_nq (jd_model pd)) (Hd : d_qpos d = q) (Hf : fits L nv d j).
Lemma fence_admissible v : admissible L d pd v <-> admissible L d pd' v.
Proof.
  destruct Hset as (Em & E1 & E2). unfold admissible. rewrite Em, E1, E2, Ec. set (Q := fun j => (is_barrier j = true -> cbf L d v j) /\ (is_hard j = true -> holds_exactly L d v j)).
  assert (G : Forall Q (l1 ++ j :: l2) <-> Forall Q (comps_of pd')); [|now rewrite G].
  transitivity (Forall Q (l1 ++ js ++ l2)); [|split; intros H; eapply Permutation_Forall; try exact H; [symmetry|]; exact Ec'].
  assert (X : Q j <-> Forall Q js); [|rewrite !Forall_app, Forall_cons_iff; tauto].
  pose proof (fence_cbf L nv q j) as Y. rewrite Mj in Y. fold d in Y. specialize (Y Hw Hs Hsm Hk Hq Hd Hf parts js v Hfe Hks). clear - Y Hfe. destruct Hfe as [Hc HF].
  assert (Kj : is_barrier j = true /\ is_hard j = false). { destruct (Hc 0%nat ltac:(lia)) as (rows0 & I0 & _). clear - HF I0. induction HF as [|p j0 ps js H HF IH]; [destruct I0|]. destruct (narrow_kinds j p j0 H) as (_ & _ & A & B & _). auto. }
  transitivity (cbf L d v j); [unfold Q; destruct Kj as [-> ->]; intuition discriminate|]. rewrite Y. clear - HF. induction HF as [|p j1 ps js H HF IH]; [split; constructor|]. rewrite !Forall_cons_iff, IH.
  assert (Z : Q j1 <-> cbf L d v j1); [|tauto]. destruct (narrow_kinds j p j1 H) as (_ & _ & _ & _ & A & B & _). unfold Q. rewrite A, B. intuition discriminate.
Qed.
(** Without safe displacement, and as long as no part has a zero Jacobian, the best
    velocities are the same. *)
Lemma fence_best : (forall k g, j_ext j = JBarrier g k -> g = 0) -> Forall (fun j' => forall k g, j_ext j' = JBarrier g k -> g = 0) js -> (forall J, jacobian L j d = Ok J -> frob2 J <> 0) -> Forall (fun j' => forall J, jacobian L j' d = Ok J -> frob2 J <> 0) js ->
  forall v, best L d pd v <-> best L d pd' v.
Proof.
  intros Z Zs N Ns. destruct Hfe as [Hc HF]. destruct Hf as (J & e & HJ & He & _).
  assert (K : forall rows j', narrowed rows j j' -> exists g k, j_ext j' = JBarrier g k). { intros rows j' (mk & lt & on & ty & lo & hi & Hn). destruct Hn as (_ & _ & _ & _ & _ & _ & (s2 & o2 & ty2 & a2 & b2 & c2 & E2 & _) & _). eauto. }
  assert (C : forall j' J' v x g k, j_ext j' = JBarrier g k -> g = 0 -> jacobian L j' d = Ok J' -> frob2 J' <> 0 -> (cost_of L d j' v x <-> x = 0)).
  { intros j' J' v x g k E -> EJ NJ. split; [intros H; inversion H as [? ? ? ? ? E'|? ? ? ? ? E'|g' k' J1 E' EJ' _|? ? ? E']; rewrite E in E'; try discriminate; injection E' as <- _; unfold Rdiv; ring|]. intros ->.
    replace 0 with (1 / 2 * (0 / frob2 J') * sq v) by (unfold Rdiv; ring). eapply cost_barrier; eauto. }
  assert (Cj : forall v x, cost_of L d j v x <-> x = 0).
  { destruct (Hc 0%nat ltac:(lia)) as (rows0 & I0 & _). assert (Kj : exists g k, j_ext j = JBarrier g k). { clear - HF I0. induction HF as [|p j0 ps js H HF IH]; [destruct I0|]. destruct H as (mk & lt & on & ty & lo & hi & Hn). destruct Hn as (_ & _ & _ & _ & _ & (s2 & o2 & ty2 & a2 & b2 & c2 & E2 & _) & _). eauto. }
    destruct Kj as (g & k & E). intros v x. apply (C j J v x g k E); eauto. }
  assert (Cs : forall v x, total_cost L d js v x <-> x = 0).
  { intros v. assert (S : Forall (fun j' => forall x, cost_of L d j' v x <-> x = 0) js).
    { pose proof (narrow_jacobian L q j) as NJ. rewrite Mj in NJ. clear Hc Cj Ec' Hfe. revert Zs Ns Hks. induction HF as [|p j1 ps js0 H HF0 IH]; intros Zs Ns Hks; [constructor|]. constructor; [|apply IH; eapply Forall_inv_tail; eassumption]. pose proof (Forall_inv Zs) as Z1. pose proof (Forall_inv Ns) as N1. pose proof (Forall_inv Hks) as K1. cbn in Z1, N1. destruct (K p j1 H) as (g & k & E).
      intros x. apply (C j1 (rows_at p J) v x g k E); eauto. }
    clear - S. induction S as [|j1 js H S IH]; intros x.
    - split; [intros (xs & F & ->); inversion F; reflexivity|]. intros ->. exists []. split; [constructor|reflexivity].
    - change (j1 :: js) with ([j1] ++ js). rewrite total_app_iff. split; [intros (y & z & A & B & ->); apply total_single in A; apply H in A; apply IH in B; lra|]. intros ->. exists 0, 0. split; [apply total_single; now apply H|]. split; [now apply IH|lra]. }
  assert (TP : forall v x l l', Permutation l l' -> total_cost L d l v x -> total_cost L d l' v x) by (intros v x l l' P; now apply total_perm).
  assert (T : forall v x, total_cost L d (comps_of pd) v x <-> total_cost L d (comps_of pd') v x).
  { intros v x. rewrite Ec. transitivity (total_cost L d (l1 ++ js ++ l2) v x); [|split; apply TP; [symmetry|]; exact Ec']. change (j :: l2) with ([j] ++ l2). rewrite !total_app_iff. split.
    - intros (y & z & A & B & ->). apply total_app_iff in B as (b & c & B1 & B2 & ->). exists y, (b + c). split; [exact A|]. split; [|reflexivity]. apply total_app_iff. exists b, c. split; [apply Cs; apply (Cj v); now apply total_single|]. auto.
    - intros (y & z & A & B & ->). apply total_app_iff in B as (b & c & B1 & B2 & ->). exists y, (b + c). split; [exact A|]. split; [|reflexivity]. apply total_app_iff. exists b, c. split; [apply total_single; apply Cj; now apply (Cs v)|]. auto. }
  intros v. unfold best. rewrite fence_admissible. split; intros (B1 & x & B2 & B3); (split; [exact B1|]); exists x; (split; [now apply T|]); intros w Hw'; apply fence_admissible in Hw'; destruct (B3 w Hw') as (y & B4 & B5); exists y; (split; [now apply T|exact B5]).
Qed.
End Problems.
(** A barrier with a zero Jacobian leaves the problem without a best velocity. *)
Lemma vanishing_part L d pd j J v : In j (comps_of pd) -> is_barrier j = true -> jacobian L j d = Ok J -> frob2 J = 0 -> ~ best L d pd v.
Proof.
  intros Hi Hb HJ Hz (_ & x & (xs & F & _) & _). assert (C : exists y, cost_of L d j v y).
  { clear - Hi F. induction F as [|i y js ys C F IH]; [destruct Hi|]. destruct Hi as [<-|Hi]; eauto. }
  destruct C as (y & C). unfold is_barrier in Hb. inversion C as [? ? ? ? ? E|? ? ? ? ? E|? ? J' E HJ' Hn|? ? ? E]; rewrite E in Hb; try discriminate Hb. apply Hn. congruence.
Qed.
