(** Convexity, optimality, finiteness, decay. *)
From Verif Require Import Base Lin LinFacts Mjx Typing Component Problem JaxComponents LocalIK SpecQP QPFacts QPThms QPThms2.
Open Scope R_scope.

Lemma dot_vsub_r u a b : List.length a = List.length b -> dot u (vsub a b) = dot u a - dot u b.
Proof.
  revert a b. induction u as [|x u IH]; intros a b H; [rewrite !dot_nil_l; lra|].
  destruct a as [|y a], b as [|z b]; try discriminate; [rewrite !dot_nil_r; lra|].
  change (vsub (y :: a) (z :: b)) with ((y - z) :: vsub a b). rewrite !dot_cons, IH by now injection H. ring.
Qed.
Lemma dot_vsub_l u a b : List.length a = List.length b -> dot (vsub a b) u = dot a u - dot b u.
Proof. intros H. rewrite !(dot_comm _ u). now apply dot_vsub_r. Qed.
Lemma mv_vsub A u v : List.length u = List.length v -> mv A (vsub u v) = vsub (mv A u) (mv A v).
Proof. intros H. unfold mv, vsub at 2, vmap2. induction A as [|r A IH]; [reflexivity|]. cbn. rewrite IH. f_equal. now apply dot_vsub_r. Qed.
Lemma vsub_self a : vsub a a = vzero (List.length a).
Proof. unfold vsub, vmap2. induction a as [|x a IH]; [reflexivity|]. cbn. unfold vzero in *. cbn. rewrite IH. f_equal. ring. Qed.
Lemma dot_le_nonneg z a b : vnonneg z -> vle a b -> dot z a <= dot z b.
Proof.
  intros Hz H. revert z Hz. induction H as [|x y a b Hx H IH]; intros z Hz; [rewrite !dot_nil_r; lra|].
  destruct Hz as [|t z Ht Hz]; [rewrite !dot_nil_l; lra|]. rewrite !dot_cons. specialize (IH z Hz).
  assert (t * x <= t * y) by now apply Rmult_le_compat_l. lra.
Qed.
Lemma vle_length a b : vle a b -> List.length a = List.length b.
Proof. induction 1; cbn; congruence. Qed.

Lemma kkt_optimal n P c A b G h v y z w :
  is_mat n n P -> (forall u t, List.length u = n -> List.length t = n -> dot u (mv P t) = dot t (mv P u)) ->
  (forall u, List.length u = n -> 0 <= dot u (mv P u)) -> List.length c = n ->
  Forall (fun r => List.length r = n) A -> Forall (fun r => List.length r = n) G ->
  List.length v = n -> List.length w = n -> List.length y = List.length A -> List.length z = List.length G -> vnonneg z ->
  vadd (vadd (vadd (mv P v) c) (vm n y A)) (vm n z G) = vzero n ->
  vmul z (vsub (mv G v) h) = vzero (List.length z) ->
  vle (mv G v) h -> vle (mv G w) h -> mv A v = b -> mv A w = b ->
  1 / 2 * dot v (mv P v) + dot c v <= 1 / 2 * dot w (mv P w) + dot c w.
Proof.
  intros HP Hsym Hpsd Hc HA HG Hv Hw Hy Hz Hz0 Hst Hcs Gv Gw Av Aw.
  set (e := vsub w v). assert (He : List.length e = n) by (unfold e; rewrite vsub_length; lia).
  assert (E0 : dot (mv P v) e + dot c e + dot (vm n y A) e + dot (vm n z G) e = 0).
  { assert (X : dot (vadd (vadd (vadd (mv P v) c) (vm n y A)) (vm n z G)) e = 0) by (rewrite Hst; apply dot_vzero_l).
    assert (L1 : List.length (mv P v) = n) by (rewrite mv_length; apply HP).
    assert (L2 : List.length (vm n y A) = n) by now apply vm_length. assert (L3 : List.length (vm n z G) = n) by now apply vm_length.
    rewrite dot_vadd_l in X by (rewrite !vadd_length; rewrite ?vadd_length; lia).
    rewrite dot_vadd_l in X by (rewrite vadd_length; lia). rewrite dot_vadd_l in X by lia. exact X. }
  assert (EA : dot (vm n y A) e = 0).
  { rewrite dot_vm by exact HA. unfold e. rewrite mv_vsub by lia. rewrite Av, Aw, vsub_self. apply dot_vzero_r. }
  assert (EG : dot (vm n z G) e <= 0).
  { rewrite dot_vm by exact HG. unfold e. rewrite mv_vsub by lia. pose proof (vle_length _ _ Gv) as LG. pose proof (vle_length _ _ Gw) as LG'.
    rewrite dot_vsub_r by lia. assert (Z : dot z (vsub (mv G v) h) = 0).
    { unfold dot. rewrite Hcs. clear. induction (List.length z) as [|k IH]; [reflexivity|]. cbn. unfold vzero in IH. rewrite IH. ring. }
    rewrite dot_vsub_r in Z by exact LG. pose proof (dot_le_nonneg z _ _ Hz0 Gw). lra. }
  assert (EQ : 0 <= dot e (mv P e)) by now apply Hpsd.
  unfold e in EQ at 1 2. rewrite mv_vsub in EQ by lia.
  assert (LP : forall t, List.length (mv P t) = n) by (intros; rewrite mv_length; apply HP).
  rewrite dot_vsub_l, !dot_vsub_r in EQ by (rewrite ?vsub_length, ?LP; lia).
  rewrite (Hsym v w Hv Hw) in EQ.
  assert (E1 : dot (mv P v) e = dot w (mv P v) - dot v (mv P v)) by (unfold e; rewrite dot_vsub_r by lia; now rewrite (dot_comm w), (dot_comm v)).
  assert (E2 : dot c e = dot c w - dot c v) by (unfold e; now rewrite dot_vsub_r by lia).
  lra.
Qed.

Section Assembled.
Context (L : lib) (sm : mjmodel) (pd : jdata) (d : mjdata) (Q : qp).
Context (Hnv : m_nv sm = m_nv (jd_model pd)) (HQ : assemble L sm pd d = Ok Q).
Notation nv := (m_nv (jd_model pd)).

Lemma rows_cols : Forall (fun r => List.length r = nv) (qp_G Q) /\ Forall (fun r => List.length r = nv) (eq_matrix Q).
Proof.
  destruct (assemble_pieces _ _ _ _ _ HQ) as (ks & F & _ & _ & EE & EG & _ & SA & SG). cbv zeta in *. split.
  - rewrite EG, concat_app. apply Forall_app. split.
    + cbn [List.concat]. rewrite app_nil_r. apply Forall_app. destruct (eye_is_mat nv) as [_ E]. split; [exact E|].
      unfold mneg. apply Forall_map. eapply Forall_impl; [|exact E]. intros r <-. apply vneg_length.
    + apply Forall_concat. eapply Forall_impl; [|exact SG]. intros M [_ H]. exact H.
  - unfold eq_matrix. rewrite EE. destruct (flat_map ac_A ks) as [|A0 As] eqn:EA; [constructor|]. 
    apply Forall_concat. eapply Forall_impl; [|exact SA]. intros M [_ H]. exact H.
Qed.

Lemma kkt_minimises v y z : Forall nonneg_weights (comps_of pd) -> kkt nv Q v y z -> optimal nv Q v.
Proof.
  intros Hn (Hv & [F1 F2] & Hy & Hz & Hz0 & Hst & Hcs). split; [exact Hv|]. split; [split; assumption|]. intros w Hw [G1 G2].
  destruct rows_cols as [RG RA]. destruct (hessian_shape L sm pd d Q Hnv HQ) as [SP Sc]. unfold objective.
  eapply (kkt_optimal nv (qp_P Q) (qp_c Q) (eq_matrix Q) (mv (eq_matrix Q) v) (qp_G Q) (qp_h Q)); eauto.
  - intros; eapply hessian_sym; eauto.
  - intros; eapply hessian_psd; eauto.
  - unfold satisfies_eq, eq_matrix in *. destruct (qp_eq Q) as [[A b]|]; [congruence|reflexivity].
Qed.

(** In terms of the documented cost. *)
Lemma cost_of_fun j v x y : cost_of L d j v x -> cost_of L d j v y -> x = y.
Proof. intros H1 H2. inversion H1; inversion H2; subst; congruence. Qed.
Lemma total_cost_fun js v x y : total_cost L d js v x -> total_cost L d js v y -> x = y.
Proof.
  intros (xs & F & ->) (ys & G & ->). f_equal. revert ys G. induction F as [|j x js xs H F IH]; intros ys G; inversion G; subst; [reflexivity|].
  f_equal; [eapply cost_of_fun; eauto|auto].
Qed.
Lemma optimal_cost v : Forall (well_shaped L nv d) (comps_of pd) -> optimal nv Q v ->
  forall x, total_cost L d (comps_of pd) v x -> forall w y, List.length w = nv -> feasible Q w -> total_cost L d (comps_of pd) w y -> x <= y.
Proof.
  intros Hs (Hv & Hf & Ho) x Hx w y Hw Hfw Hy. destruct (objective_is_cost L sm pd d Q Hnv HQ Hs) as [k0 G].
  destruct (G v Hv) as (x' & X1 & X2). destruct (G w Hw) as (y' & Y1 & Y2).
  rewrite (total_cost_fun _ _ _ _ Hx X1), (total_cost_fun _ _ _ _ Hy Y1). specialize (Ho w Hw Hfw). unfold objective in Ho. lra.
Qed.
Lemma sq_nonneg v : 0 <= sq v. Proof. apply dot_self_nonneg. Qed.
Lemma cost_nonneg j v x : nonneg_weights j -> cost_of L d j v x -> 0 <= x.
Proof.
  intros Hn H. unfold nonneg_weights in Hn. inversion H as [W lm k J e E|act W k J e E|sdg k J E EJ Hf|act W k E]; subst; try rewrite E in Hn.
  - pose proof (sq_nonneg (mv W (vadd (mv J v) (gained j e)))). pose proof (sq_nonneg (mv W (gained j e))). pose proof (sq_nonneg v).
    assert (0 <= lm * sq (mv W (gained j e)) * sq v) by (repeat apply Rmult_le_pos; assumption). lra.
  - pose proof (sq_nonneg (mv W (vadd (mv J v) (gained j e)))). lra.
  - pose proof (sq_nonneg v). pose proof (frob2_nonneg J). assert (0 <= sdg / frob2 J) by (apply Rmult_le_pos; [exact Hn|apply Rlt_le, Rinv_0_lt_compat; lra]).
    assert (0 <= sdg / frob2 J * sq v) by now apply Rmult_le_pos. lra.
  - lra.
Qed.
Lemma total_nonneg js v x : Forall nonneg_weights js -> total_cost L d js v x -> 0 <= x.
Proof.
  intros Hn (xs & F & ->). induction F as [|j y js xs H F IH]; cbn; [lra|]. inversion Hn; subst.
  pose proof (cost_nonneg _ _ _ H2 H). specialize (IH H3). lra.
Qed.
Lemma mv_vzero_r A n : mv A (vzero n) = vzero (List.length A).
Proof. unfold mv, vzero at 2. induction A as [|r A IH]; [reflexivity|]. cbn. rewrite IH, dot_vzero_r. reflexivity. Qed.
Lemma sq_vzero n : sq (vzero n) = 0. Proof. apply dot_vzero_l. Qed.

Lemma rest_cost j x : well_shaped L nv d j -> at_rest L d j -> cost_of L d j (vzero nv) x -> x = 0.
Proof.
  intros Hs Hr H. inversion H as [W lm k J e E EJ Ee|act W k J e E EJ Ee|sdg k J E EJ Hf|act W k E]; subst.
  - destruct Hr as [Hr|[Hr|Hr]]; [unfold is_barrier in Hr; now rewrite E in Hr|unfold is_hard in Hr; now rewrite E in Hr|].
    rewrite (Hr e Ee). destruct (Hs J e EJ Ee) as [[S1 _] _]. rewrite mv_vzero_r, S1, vadd_zero_r by apply vzero_length. rewrite mv_vzero_r, !sq_vzero. ring.
  - destruct Hr as [Hr|[Hr|Hr]]; [unfold is_barrier in Hr; now rewrite E in Hr|unfold is_hard in Hr; now rewrite E in Hr|].
    rewrite (Hr e Ee). destruct (Hs J e EJ Ee) as [[S1 _] _]. rewrite mv_vzero_r, S1, vadd_zero_r by apply vzero_length. rewrite mv_vzero_r, !sq_vzero. ring.
  - rewrite sq_vzero. ring.
  - reflexivity.
Qed.
Lemma total_rest js x : Forall (well_shaped L nv d) js -> Forall (at_rest L d) js -> total_cost L d js (vzero nv) x -> x = 0.
Proof.
  intros Hs Hr (xs & F & ->). induction F as [|j y js xs H F IH]; [reflexivity|]. inversion Hs; inversion Hr; subst. cbn.
  rewrite (rest_cost j y), IH; auto. lra.
Qed.
Lemma optimal_at_rest v x : Forall (well_shaped L nv d) (comps_of pd) -> Forall nonneg_weights (comps_of pd) -> Forall (at_rest L d) (comps_of pd) ->
  feasible Q (vzero nv) -> optimal nv Q v -> total_cost L d (comps_of pd) v x -> x = 0 /\ total_cost L d (comps_of pd) (vzero nv) 0.
Proof.
  intros Hs Hn Hr Hf Ho Hx. destruct (objective_is_cost L sm pd d Q Hnv HQ Hs) as [k0 G].
  destruct (G (vzero nv) (vzero_length _)) as (y & Y1 & _). assert (y = 0) by (eapply total_rest; eauto). subst y. split; [|exact Y1].
  pose proof (optimal_cost v Hs Ho x Hx (vzero nv) 0 (vzero_length _) Hf Y1). pose proof (total_nonneg _ _ _ Hn Hx). lra.
Qed.
End Assembled.
