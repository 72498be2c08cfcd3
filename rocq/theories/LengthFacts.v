(** Integration of arrays of any length. *)
From Verif Require Import Base Lin LinFacts Mjx SpecJoint JointFacts Rot Conf IntegrateFacts SpecMotion MotionFacts SpecLengths.
Open Scope R_scope.

Lemma jx_idx_last (l : list R) i : l <> [] -> jx_idx l (Z.of_nat i) = Ok (entry_or_last l i).
Proof.
  intros H. assert (P : (0 < List.length l)%nat) by (destruct l; [contradiction|cbn; lia]). unfold jx_idx, entry_or_last. cbv zeta.
  destruct (Z.ltb_spec (Z.of_nat i) 0) as [|_]; [lia|].
  replace (Z.to_nat (Z.max 0 (Z.min (Z.of_nat i) (Z.of_nat (List.length l) - 1)))) with (Nat.min i (List.length l - 1)) by lia.
  rewrite (nth_error_nth' l 0) by lia. reflexivity.
Qed.
Lemma jx_idx_nil {A} i : @jx_idx A [] i = Err IndexError.
Proof. unfold jx_idx. cbn [List.length]. now destruct (Z.to_nat _). Qed.
Lemma jx_quat_ok l : l <> [] -> exists a, jx_quat l = Ok a.
Proof.
  intros H. unfold jx_quat. change 0%Z with (Z.of_nat 0). change 1%Z with (Z.of_nat 1). change 2%Z with (Z.of_nat 2). change 3%Z with (Z.of_nat 3).
  rewrite !jx_idx_last by exact H. cbn [bind]. eexists. reflexivity.
Qed.
Lemma jx_quat_integrate_ok q v dt : q <> [] -> exists x, jx_quat_integrate q v dt = Ok x /\ List.length x = 4%nat.
Proof.
  intros H. destruct (jx_quat_ok q H) as [a Ha]. destruct (jx_quat_ok (turn_entries v dt)) as [b Hb]; [discriminate|].
  unfold jx_quat_integrate. rewrite Ha, Hb. cbn [bind]. eexists. split; reflexivity.
Qed.
Lemma slice_len {A} a k (l : list A) : List.length (slice a k l) = Nat.min k (List.length l - a).
Proof. unfold slice. now rewrite firstn_length, skipn_length. Qed.
Lemma bc2_ok f a b : List.length a = 3%nat -> (List.length b <= 3)%nat ->
  (List.length b = 3%nat \/ List.length b = 1%nat -> exists x, bc2 f a b = Ok x /\ List.length x = 3%nat) /\
  (List.length b = 0%nat \/ List.length b = 2%nat -> bc2 f a b = Err TypeError).
Proof.
  intros Ha Hb. destruct a as [|a1 [|a2 [|a3 [|]]]]; cbn in Ha; try lia. destruct b as [|b1 [|b2 [|b3 [|]]]]; cbn in Hb; try lia;
    (split; [intros [E|E]; cbn in E; try discriminate; eexists; split; reflexivity|intros [E|E]; cbn in E; try discriminate; reflexivity]).
Qed.

(** What one joint needs, at velocity address [vi], of [k] velocities. *)
Definition needs (k vi : nat) (t : jnttype) : Prop :=
  match t with JFree => (vi < k)%nat /\ k <> (vi + 2)%nat | JBall => True | _ => (0 < k)%nat end.
Lemma integrate_at_ok t qi vi q v dt : (qi + jnt_nq t <= List.length q)%nat ->
  (needs (List.length v) vi t -> exists x, integrate_at t qi vi q v dt = Ok x /\ List.length x = jnt_nq t) /\
  (~ needs (List.length v) vi t -> exists e, integrate_at t qi vi q v dt = Err e).
Proof.
  intros Hq. assert (SC : (qi + 1 <= List.length q)%nat ->
    ((0 < List.length v)%nat -> exists x, (do x <- jx_idx q (Z.of_nat qi); do w <- jx_idx v (Z.of_nat vi); Ok [x + dt * w]) = Ok x /\ List.length x = 1%nat) /\
    (~ (0 < List.length v)%nat -> exists e, (do x <- jx_idx q (Z.of_nat qi); do w <- jx_idx v (Z.of_nat vi); Ok [x + dt * w]) = Err e)).
  { intros G. rewrite (jx_idx_last q) by (intros ->; cbn in G; lia). cbn [bind]. split; intros K.
    - rewrite (jx_idx_last v) by (intros ->; cbn in K; lia). cbn [bind]. eexists. split; reflexivity.
    - assert (v = []) as -> by (destruct v; [reflexivity|cbn in K; lia]). rewrite jx_idx_nil. cbn [bind]. eexists. reflexivity. }
  destruct t; cbn [jnt_nq needs] in *; unfold integrate_at.
  - set (a := slice qi 3 q). set (b := map (Rmult dt) (slice vi 3 v)).
    assert (La : List.length a = 3%nat) by (unfold a; rewrite slice_len; lia). assert (Lb : List.length b = Nat.min 3 (List.length v - vi)) by (unfold b; rewrite map_length; apply slice_len).
    destruct (bc2_ok Rplus a b La) as [B1 B2]; [lia|]. destruct (jx_quat_integrate_ok (slice (qi + 3) 4 q) (slice (vi + 3) 3 v) dt) as (r & Hr & Lr).
    { intros E. apply (f_equal (@List.length R)) in E. rewrite slice_len in E. change (List.length (@nil R)) with 0%nat in E. lia. }
    split; intros K.
    + destruct B1 as (p & -> & Lp); [lia|]. cbn [bind]. rewrite Hr. cbn [bind]. eexists. split; [reflexivity|]. rewrite app_length. lia.
    + rewrite B2 by lia. eexists. reflexivity.
  - split; [intros _|intros K; now destruct K]. apply jx_quat_integrate_ok. intros E. apply (f_equal (@List.length R)) in E. rewrite slice_len in E. change (List.length (@nil R)) with 0%nat in E. lia.
  - apply SC. lia.
  - apply SC. lia.
Qed.
Lemma integrate_all_ok ts : forall qi vi q v dt, (qi + total jnt_nq ts <= List.length q)%nat ->
  ((forall j t, nth_error ts j = Some t -> needs (List.length v) (vi + pos jnt_nv ts j) t) ->
     exists x, integrate_all ts qi vi q v dt = Ok x /\ List.length x = total jnt_nq ts) /\
  ((exists j t, nth_error ts j = Some t /\ ~ needs (List.length v) (vi + pos jnt_nv ts j) t) -> exists e, integrate_all ts qi vi q v dt = Err e).
Proof.
  induction ts as [|t ts IH]; intros qi vi q v dt Hq.
  - split; [intros _; exists []; split; reflexivity|intros ([|j] & t & H & _); discriminate].
  - assert (S : forall (size : jnttype -> nat), total size (t :: ts) = (size t + total size ts)%nat) by reflexivity. rewrite S in *.
    assert (P : forall size j, pos size (t :: ts) (Datatypes.S j) = (size t + pos size ts j)%nat) by reflexivity.
    destruct (integrate_at_ok t qi vi q v dt) as [A1 A2]; [lia|]. destruct (IH (qi + jnt_nq t)%nat (vi + jnt_nv t)%nat q v dt) as [R1 R2]; [lia|].
    cbn [integrate_all]. split.
    + intros K. pose proof (K 0%nat t eq_refl) as K0. change (pos jnt_nv (t :: ts) 0) with 0%nat in K0. rewrite Nat.add_0_r in K0.
      destruct (A1 K0) as (x & -> & Lx). cbn [bind]. destruct R1 as (r & -> & Lr).
      { intros j t' H. specialize (K (Datatypes.S j) t' H). rewrite P, Nat.add_assoc in K. exact K. }
      cbn [bind]. eexists. split; [reflexivity|]. rewrite app_length. lia.
    + intros ([|j] & t' & H & K).
      * injection H as <-. change (pos jnt_nv (t :: ts) 0) with 0%nat in K. rewrite Nat.add_0_r in K. destruct (A2 K) as [e ->]. cbn [bind]. eexists. reflexivity.
      * rewrite P, Nat.add_assoc in K. destruct R2 as [e He]; [exists j, t'; split; [exact H|exact K]|]. destruct (integrate_at t qi vi q v dt); cbn [bind]; [rewrite He; cbn [bind]|]; eexists; reflexivity.
Qed.

Lemma enough_needs m k j t : wf_joints m -> joint_type m j t -> (enough_for m k j <-> needs k (pos jnt_nv (m_jnt_type m) j) t).
Proof.
  intros Hw H. unfold enough_for. pose proof (dof_pos m Hw j t H) as D. unfold joint_type in H. rewrite H. destruct t; cbn [needs]; rewrite <- ?D; tauto.
Qed.
Lemma needs_dec k vi t : {needs k vi t} + {~ needs k vi t}.
Proof.
  destruct t; cbn [needs].
  - destruct (lt_dec vi k); [|right; tauto]. destruct (Nat.eq_dec k (vi + 2)); [right; tauto|left; tauto].
  - now left.
  - apply lt_dec.
  - apply lt_dec.
Qed.
Lemma nth_error_dec {A} (P : nat -> A -> Prop) (dec : forall j t, {P j t} + {~ P j t}) ts :
  (forall j t, nth_error ts j = Some t -> P j t) \/ exists j t, nth_error ts j = Some t /\ ~ P j t.
Proof.
  revert P dec. induction ts as [|a ts IH]; intros P dec; [left; intros [|j] t H; discriminate|].
  destruct (dec 0%nat a) as [H0|H0]; [|right; exists 0%nat, a; split; [reflexivity|exact H0]].
  destruct (IH (fun j t => P (S j) t) (fun j t => dec (S j) t)) as [H|(j & t & H & K)].
  - left. intros [|j] t E; [injection E as <-; exact H0|now apply H].
  - right. exists (S j), t. split; [exact H|exact K].
Qed.
Lemma integrate_accepts m q v dt : wf_joints m -> List.length q = m_nq m ->
  (forall j, enough_for m (List.length v) j) -> exists q', integrate m q v dt = Ok q' /\ List.length q' = m_nq m.
Proof.
  intros Hw Hq H. pose proof Hw as (_ & _ & _ & Hnq & _). destruct (integrate_all_ok (m_jnt_type m) 0 0 q v dt) as [A _]; [rewrite Hq, Hnq; apply Nat.le_refl|].
  destruct A as (x & Hx & Lx); [|exists x; split; [exact Hx|congruence]].
  intros j t K. cbn [Nat.add]. now apply (enough_needs m _ j t Hw K).
Qed.
Lemma integrate_refuses m q v dt : wf_joints m -> List.length q = m_nq m ->
  (exists j, ~ enough_for m (List.length v) j) -> exists e, integrate m q v dt = Err e.
Proof.
  intros Hw Hq [j H]. pose proof Hw as (_ & _ & _ & Hnq & _). destruct (integrate_all_ok (m_jnt_type m) 0 0 q v dt) as [_ A]; [rewrite Hq, Hnq; apply Nat.le_refl|].
  apply A. destruct (nth_error (m_jnt_type m) j) as [t|] eqn:E; [|exfalso; apply H; unfold enough_for; now rewrite E].
  exists j, t. split; [exact E|]. cbn [Nat.add]. intros K. apply H. now apply (enough_needs m _ j t Hw E).
Qed.
Lemma integrate_accepts_iff m q v dt : wf_joints m -> List.length q = m_nq m ->
  ((exists q', integrate m q v dt = Ok q') <-> forall j, enough_for m (List.length v) j).
Proof.
  intros Hw Hq. split.
  - intros [q' H]. destruct (nth_error_dec (fun j t => needs (List.length v) (pos jnt_nv (m_jnt_type m) j) t) (fun j t => needs_dec _ _ t) (m_jnt_type m)) as [A|(j & t & E & K)].
    + intros j. destruct (nth_error (m_jnt_type m) j) as [t|] eqn:E; [|unfold enough_for; now rewrite E]. apply (enough_needs m _ j t Hw E). now apply A.
    + destruct (integrate_refuses m q v dt Hw Hq) as [e He]; [|congruence]. exists j. intros N. apply K. now apply (enough_needs m _ j t Hw E).
  - intros H. destruct (integrate_accepts m q v dt Hw Hq H) as (q' & A & _). now exists q'.
Qed.

(** Longer arrays: the rest is ignored. *)
Lemma integrate_at_prefix t qi vi q q2 v v2 dt : (qi + jnt_nq t <= List.length q)%nat -> (vi + jnt_nv t <= List.length v)%nat ->
  integrate_at t qi vi (q ++ q2) (v ++ v2) dt = integrate_at t qi vi q v dt.
Proof.
  intros Hq Hv. assert (SL : forall {A} a k (l r : list A), (a + k <= List.length l)%nat -> slice a k (l ++ r) = slice a k l).
  { intros A a k l r H. unfold slice. rewrite skipn_app, firstn_app, skipn_length. replace (k - (List.length l - a))%nat with 0%nat by lia. cbn [firstn]. apply app_nil_r. }
  assert (IX : forall (l r : list R) i, (i < List.length l)%nat -> jx_idx (l ++ r) (Z.of_nat i) = jx_idx l (Z.of_nat i)).
  { intros l r i H. rewrite !jx_idx_last by (intros E; apply (f_equal (@List.length R)) in E; rewrite ?app_length in E; cbn in E; lia).
    f_equal. unfold entry_or_last. rewrite app_length, !Nat.min_l by lia. now apply app_nth1. }
  destruct t; cbn [jnt_nq jnt_nv] in *; unfold integrate_at; rewrite ?SL, ?IX by lia; reflexivity.
Qed.
Lemma integrate_prefix m q q2 v v2 dt : wf_joints m -> List.length q = m_nq m -> List.length v = m_nv m ->
  integrate m (q ++ q2) (v ++ v2) dt = integrate m q v dt.
Proof.
  intros (_ & _ & _ & Hnq & Hnv & _) Hq Hv. unfold integrate. rewrite Hnq in Hq. rewrite Hnv in Hv.
  assert (G : forall ts qi vi, (qi + total jnt_nq ts <= List.length q)%nat -> (vi + total jnt_nv ts <= List.length v)%nat ->
    integrate_all ts qi vi (q ++ q2) (v ++ v2) dt = integrate_all ts qi vi q v dt).
  { induction ts as [|t ts IH]; intros qi vi H1 H2; [reflexivity|].
    assert (S : forall (size : jnttype -> nat), total size (t :: ts) = (size t + total size ts)%nat) by reflexivity. rewrite S in *.
    cbn [integrate_all]. rewrite integrate_at_prefix, IH by lia. reflexivity. }
  apply G; lia.
Qed.

(** Shorter arrays on robots with hinge and slide joints: the last entry is used again. *)
Lemma integrate_repeats m q v dt : only_scalar_joints m -> q <> [] -> v <> [] ->
  integrate m q v dt = Ok (map (fun i => entry_or_last q i + dt * entry_or_last v i) (seq 0 (List.length (m_jnt_type m)))).
Proof.
  intros Hs Hq Hv. unfold integrate. assert (F : Forall (fun t => t = JHinge \/ t = JSlide) (m_jnt_type m)).
  { apply Forall_forall. intros t H. apply In_nth_error in H as [j H]. now apply (Hs j t). }
  assert (G : forall ts k, Forall (fun t => t = JHinge \/ t = JSlide) ts ->
    integrate_all ts k k q v dt = Ok (map (fun i => entry_or_last q i + dt * entry_or_last v i) (seq k (List.length ts)))).
  { induction ts as [|t ts IH]; intros k Fk; [reflexivity|]. inversion Fk as [|? ? Ht Fr]; subst.
    assert (E : integrate_at t k k q v dt = Ok [entry_or_last q k + dt * entry_or_last v k] /\ jnt_nq t = 1%nat /\ jnt_nv t = 1%nat).
    { destruct Ht as [-> | ->]; cbn [integrate_at]; rewrite !jx_idx_last by assumption; repeat split. }
    destruct E as (E & E1 & E2). cbn [integrate_all]. rewrite E, E1, E2. cbn [bind]. rewrite Nat.add_1_r, IH by exact Fr. reflexivity. }
  now apply G.
Qed.

(** The result segment by segment. *)
Lemma integrate_all_segments ts : forall qi vi q v dt x, (qi + total jnt_nq ts <= List.length q)%nat -> integrate_all ts qi vi q v dt = Ok x ->
  forall j t, nth_error ts j = Some t ->
    integrate_at t (qi + pos jnt_nq ts j) (vi + pos jnt_nv ts j) q v dt = Ok (slice (pos jnt_nq ts j) (jnt_nq t) x).
Proof.
  induction ts as [|t ts IH]; intros qi vi q v dt x Hq H j t' E; [destruct j; discriminate|].
  assert (S : forall (size : jnttype -> nat), total size (t :: ts) = (size t + total size ts)%nat) by reflexivity. rewrite S in Hq.
  assert (P : forall size j, pos size (t :: ts) (Datatypes.S j) = (size t + pos size ts j)%nat) by reflexivity.
  cbn [integrate_all] in H. destruct (integrate_at_ok t qi vi q v dt) as [A1 A2]; [lia|].
  destruct (integrate_at t qi vi q v dt) as [y|e] eqn:Ey; [|discriminate]. cbn [bind] in H.
  destruct (integrate_all ts (qi + jnt_nq t) (vi + jnt_nv t) q v dt) as [r|e] eqn:Er; [|discriminate]. cbn [bind] in H. injection H as <-.
  assert (Ly : List.length y = jnt_nq t).
  { destruct (needs_dec (List.length v) vi t) as [N|N]; [destruct (A1 N) as (y' & E1 & L1); congruence|destruct (A2 N); discriminate]. }
  destruct j as [|j].
  - injection E as <-. change (pos ?s (t :: ts) 0) with 0%nat. rewrite !Nat.add_0_r, Ey. f_equal. unfold slice. cbn [skipn].
    now rewrite <- Ly, firstn_app, Nat.sub_diag, firstn_all, app_nil_r.
  - cbn in E. rewrite !P, !Nat.add_assoc. rewrite (IH _ _ q v dt r) by (try lia; assumption). f_equal.
    unfold slice. rewrite <- Ly, skipn_app, (skipn_all2 y) by lia. cbn [app]. do 2 f_equal. lia.
Qed.
Lemma q_normalize_scaled k q : 0 < k -> q_norm2 q = 1 -> q_normalize (mkQ (k * qw q) (k * qx q) (k * qy q) (k * qz q)) = q.
Proof.
  intros Hk Hq. unfold q_normalize. assert (N : sqrt (q_norm2 (mkQ (k * qw q) (k * qx q) (k * qy q) (k * qz q))) = k).
  { replace (q_norm2 _) with (k * k * q_norm2 q) by (unfold q_norm2; cbn; ring). rewrite Hq, Rmult_1_r. apply sqrt_square. lra. }
  cbv zeta. rewrite N. cbn [qw qx qy qz]. unfold safe_div. destruct (Req_EM_T k 0); [lra|]. destruct q as [a b c d]. cbn. f_equal; field; lra.
Qed.
