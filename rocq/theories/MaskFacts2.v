(** Jacobians and costs of masked tasks. *)
From Verif Require Import Base Lin LinFacts Mjx Typing Component Problem SpecComponent SpecJoint SpecHistory Rot Conf FrameJac Collide JaxComponents.
From Verif Require Import SpecCollision SpecTree SpecShape SpecContact SpecSelf SpecConf SpecMotion SpecValue LocalIK SpecQP SpecSolve SpecDeriv SpecMask.
From Verif Require Import BindFacts MotionFacts2 FrameFacts ValueFacts ValueFacts2 ValueFacts3 ValueFacts4 ValueThms ConfFacts3 DerivThms MaskFacts.
Open Scope R_scope.
Local Opaque dot.

Lemma masked_within as_ j j' : masked as_ j j' -> j_model j' = j_model j -> exists n, Forall (fun a => (a < n)%nat) as_ /\ NoDup as_ /\ (forall L d e, call L j d = Ok e -> List.length e = n) /\ (automatic j -> n = 3%nat).
Proof.
  assert (ND : forall n mk, NoDup (axes n mk)). { intros n [k|]; cbn; [apply NoDup_filter|]; apply seq_NoDup. }
  assert (B : forall x t e, bc2 Rminus x t = Ok e -> List.length t = List.length x -> List.length e = List.length x).
  { intros x t e H Hl. rewrite bc2_eq in H by auto. injection H as <-. unfold vmap2. rewrite map_length, combine_length. lia. }
  intros [mk on ty q p Hj Hj' Hp Hm -> Ht Ht'|mk on ty t Hj Hj' Hp Hm -> Ht Ht'|mk t Hj Hj' Hm -> Ht Ht'|f t Hj Hj' -> Ht Ht'] Em.
  - exists 6%nat. split; [now apply axes_within|]. split; [apply ND|]. destruct (frame_task_facts _ _ _ _ Hj) as (S & _ & M & _ & W & lm & t & i & E & Hi). split; [|unfold automatic; rewrite E; tauto].
    intros L d e C. unfold call in C. rewrite E in C. unfold call_frame in C. destruct (get_frame d i ty); [|discriminate]. cbn [bind] in C. destruct (vec_of t) as [tl|]; [|discriminate]. cbn [bind] in C. destruct (se3_of tl); [|discriminate]. cbn [bind] in C.
    apply gather_len in C. rewrite M in C. exact C.
  - exists 3%nat. split; [now apply axes_within|]. split; [apply ND|]. destruct (position_task_facts _ _ _ _ Hj) as (S & _ & M & _ & W & lm & u & i & E & Hi & Lu). split; [|auto].
    pose proof (target_pos _ _ _ _ _ _ _ E Ht) as ->. rewrite last_dim_vec in Lu. injection Lu as Lu. intros L d e C. unfold call in C. rewrite E in C. unfold call_pos in C. destruct (get_pos d i ty); [|discriminate]. cbn [bind] in C.
    rewrite M in C. destruct (jx_gather _ _) as [y|] eqn:G; [|discriminate]. cbn [bind] in C. rewrite vec_of_tvec in C. cbn [bind] in C. pose proof (gather_len _ _ _ G) as Ly. rewrite map_length in Ly. rewrite (B _ _ _ C) by (rewrite Ly; exact Lu). exact Ly.
  - pose proof Hj' as (name & cost & gain & gf & lm0 & c & Hn & _). pose proof (com_task_within _ _ _ _ _ _ _ Hn Hm) as Hk.
    exists 3%nat. split; [now apply axes_within|]. split; [apply ND|]. destruct (com_task_facts _ _ Hj) as (S & _ & M & _ & W & lm & u & E & Lu). split; [|auto].
    pose proof (target_com _ _ _ _ _ E Ht) as ->. rewrite last_dim_vec in Lu. injection Lu as Lu. intros L d e C. unfold call in C. rewrite E in C. unfold call_com in C. destruct (np_idx _ _); [|discriminate]. cbn [bind] in C. destruct (jx_idx _ _); [|discriminate]. cbn [bind] in C.
    rewrite M in C. destruct (jx_gather _ _) as [y|] eqn:G; [|discriminate]. cbn [bind] in C. rewrite vec_of_tvec in C. cbn [bind] in C. pose proof (gather_len _ _ _ G) as Ly. rewrite map_length in Ly. rewrite (B _ _ _ C) by (rewrite Ly; exact Lu). exact Ly.
  - exists (List.length (selected (j_model j) None)). destruct (joint_task_facts _ _ Hj') as (_ & Hf & _). rewrite Em in Hf. split; [now apply joint_axes_in|]. split; [apply ND|].
    destruct (joint_task_facts _ _ Hj) as (Hw & _ & _ & _ & _ & W & lm & u & E & Lu). split; [|unfold automatic; rewrite E; tauto]. destruct Ht as (a & b & qi & F). rewrite E in F. injection F as <- <- -> <-. rewrite last_dim_vec in Lu. injection Lu as Lu.
    intros L d e C. unfold call in C. rewrite E in C. unfold call_joint in C. destruct (jx_gather _ _) as [y|] eqn:G; [|discriminate]. cbn [bind] in C. rewrite vec_of_tvec in C. cbn [bind] in C. pose proof (gather_len _ _ _ G) as Ly. unfold qidx_of in Ly. rewrite map_length in Ly. rewrite (B _ _ _ C) by (rewrite Ly; exact Lu). exact Ly.
Qed.

Lemma masked_jacobian L as_ j j' d J : masked as_ j j' -> j_model j' = j_model j -> ~ automatic j -> jacobian L j d = Ok J -> jacobian L j' d = Ok (rows_at as_ J).
Proof.
  intros [mk on ty q p Hj Hj' Hp Hm -> Ht Ht'|mk on ty t Hj Hj' Hp Hm -> Ht Ht'|mk t Hj Hj' Hm -> Ht Ht'|f t Hj Hj' -> Ht Ht'] Em Ha C.
  - destruct (frame_task_facts _ _ _ _ Hj) as (S & _ & M & _ & W & lm & t & i & E & Hi). destruct (frame_task_facts _ _ _ _ Hj') as (S' & _ & M' & _ & W' & lm' & t' & i' & E' & Hi').
    destruct Ht as (_ & a & b & c & g & F). rewrite E in F. injection F as <- <- <- <- ->. destruct Ht' as (_ & a' & b' & c' & g' & F). rewrite E' in F. injection F as <- <- <- <- ->.
    rewrite Em in Hi'. pose proof (same_object _ _ _ _ _ S Hi Hi') as ->. unfold jacobian in *. rewrite E in C. rewrite E'. unfold jac_frame in *. rewrite Em.
    destruct (vec_of _) as [tl|]; [|discriminate]. cbn [bind] in *. destruct (se3_of tl) as [tt|]; [|discriminate]. cbn [bind] in *. destruct (get_frame d i ty) as [fr|]; [|discriminate]. cbn [bind] in *.
    destruct (get_frame_jacobian_local _ _ _ _) as [F|]; [|discriminate]. cbn [bind] in *. destruct (l_jacrev L _ _) as [G|]; [|discriminate]. cbn [bind] in *. cbv zeta in *.
    rewrite M in C. rewrite M'. exact (gather_sub _ 6 J (axes 6 mk) [] C (axes_within 6 mk Hm)).
  - destruct (position_task_facts _ _ _ _ Hj) as (S & _ & M & _ & W & lm & u & i & E & _). exfalso. apply Ha. unfold automatic. now rewrite E.
  - destruct (com_task_facts _ _ Hj) as (S & _ & M & _ & W & lm & u & E & _). exfalso. apply Ha. unfold automatic. now rewrite E.
  - destruct (joint_task_facts _ _ Hj) as (Hw & _ & D & I0 & _ & W & lm & u & E & Lu). destruct (joint_task_facts _ _ Hj') as (_ & Hf & D' & I' & _ & W' & lm' & u' & E' & Lu'). rewrite Em in *.
    unfold jacobian in *. rewrite E in C. rewrite E'. unfold jac_joint in *. rewrite D, I0, vidx_seq in C. rewrite D', I', vidx_seq, Em.
    pose proof (sel_matrix_in _ _ (dofs_in (j_model j) None Hw)) as X. rewrite map_length in X. rewrite X in C. injection C as <-.
    pose proof (sel_matrix_in _ _ (dofs_in (j_model j) (Some f) Hw)) as Y. rewrite map_length in Y. rewrite Y. f_equal. rewrite !map_map. rewrite selected_axes by exact Hf.
    apply map_sub. now apply joint_axes_in.
Qed.
Lemma masked_automatic as_ j j' : masked as_ j j' -> automatic j -> automatic j'.
Proof.
  intros [mk on ty q p Hj Hj' Hp Hm -> Ht Ht'|mk on ty t Hj Hj' Hp Hm -> Ht Ht'|mk t Hj Hj' Hm -> Ht Ht'|f t Hj Hj' -> Ht Ht'] Ha.
  - destruct (frame_task_facts _ _ _ _ Hj) as (S & _ & M & _ & W & lm & t & i & E & Hi). unfold automatic in Ha. now rewrite E in Ha.
  - destruct (position_task_facts _ _ _ _ Hj') as (S & _ & M & _ & W & lm & u & i & E & _). unfold automatic. now rewrite E.
  - destruct (com_task_facts _ _ Hj') as (S & _ & M & _ & W & lm & u & E & _). unfold automatic. now rewrite E.
  - destruct (joint_task_facts _ _ Hj) as (Hw & _ & D & I0 & _ & W & lm & u & E & Lu). unfold automatic in Ha. now rewrite E in Ha.
Qed.
Lemma masked_jacobian_auto L as_ j j' q J : let m := j_model j in masked as_ j j' -> j_model j' = m -> automatic j -> sound_jac (l_jacrev L) -> smooth L j 3 q -> kinematic L j -> kinematic L j' ->
  List.length q = m_nq m -> d_qpos (update L m q) = q -> jacobian L j (update L m q) = Ok J -> jacobian L j' (update L m q) = Ok (rows_at as_ J).
Proof.
  cbv zeta. intros Hm Em Ha Hs (Ht & M & HM & HJ) Hk Hk' Hq Hd C. destruct (masked_within _ _ _ Hm Em) as (n & Fa & _ & _ & Hn). rewrite (Hn Ha) in Fa. clear n Hn.
  pose proof (auto_jacobian L j 3 q M Hs Ha Hk Hq Ht HM HJ Hd) as A. rewrite A in C.
  assert (V : forall y, List.length y = m_nq (j_model j) -> value_at L j' y = coords as_ (value_at L j y) /\ call L j' (update L (j_model j) y) = Ok (coords as_ (value_at L j y))).
  { intros y Hy. destruct (Ht y Hy) as (e & He & Le). unfold value_at. rewrite Em, He, (masked_value L as_ j j' _ e Hm Em He). auto. }
  rewrite <- Em at 1. rewrite (auto_jacobian L j' (List.length as_) q (rows_at as_ M)); rewrite ?Em; auto.
  - now apply (to_velocity_rows 3).
  - now apply (masked_automatic as_ j).
  - intros y Hy. eexists. split; [apply (V y Hy)|apply coords_length].
  - now apply (rows_mat 3).
  - intros i Hi. rewrite rows_length in Hi. rewrite nth_rows by exact Hi. assert (Hai : (nth i as_ 0%nat < 3)%nat) by (rewrite Forall_forall in Fa; apply Fa, nth_In; exact Hi).
    intros eps He. destruct (HJ (nth i as_ 0%nat) ltac:(rewrite (proj1 HM); exact Hai) eps He) as (del & Hdel & K). exists del. split; [exact Hdel|]. intros y Hy Hs'.
    destruct (V y ltac:(congruence)) as [-> _]. destruct (V q Hq) as [-> _]. rewrite !nth_coords by exact Hi. now apply K.
Qed.

(** ** Costs *)
Lemma sum_perm (f : nat -> R) l l' : Permutation.Permutation l l' -> vsum (map f l) = vsum (map f l').
Proof. intros P. induction P; cbn; lra. Qed.
Lemma sum_select (f : nat -> R) n as_ : NoDup as_ -> Forall (fun a => (a < n)%nat) as_ -> (forall a, ~ In a as_ -> f a = 0) -> vsum (map f (seq 0 n)) = vsum (map f as_).
Proof.
  intros ND F Z. set (g := fun a => existsb (Nat.eqb a) as_).
  assert (G : forall a, g a = true <-> In a as_). { intros a. unfold g. rewrite existsb_exists. split; [intros (x & Hx & E); apply Nat.eqb_eq in E; now subst|intros H; exists a; split; [exact H|apply Nat.eqb_refl]]. }
  assert (P : Permutation.Permutation (filter g (seq 0 n)) as_).
  { apply Permutation.NoDup_Permutation; [apply NoDup_filter, seq_NoDup|exact ND|]. intros a. rewrite filter_In, G, in_seq. rewrite Forall_forall in F. split; [tauto|]. intros H. split; [|exact H]. specialize (F a H). lia. }
  rewrite <- (sum_perm _ _ _ P). generalize (seq 0 n) as l. intros l. induction l as [|a l IH]; [reflexivity|]. cbn. rewrite IH. destruct (g a) eqn:E; cbn; [reflexivity|]. rewrite Z; [lra|]. intros H. apply G in H. congruence.
Qed.
Lemma dot_sum a b n : List.length a = n -> List.length b = n -> dot a b = vsum (map (fun i => nth i a 0 * nth i b 0) (seq 0 n)).
Proof.
  revert a b. induction n as [|n IH]; intros [|x a] [|y b] Ha Hb; try discriminate; [reflexivity|]. injection Ha as Ha. injection Hb as Hb. rewrite dot_cons, (IH a b Ha Hb). cbn [seq map nth]. rewrite <- seq_shift, map_map. reflexivity.
Qed.
Lemma dot_coords as_ r x : dot (coords as_ r) (coords as_ x) = vsum (map (fun a => nth a r 0 * nth a x 0) as_).
Proof. unfold coords. induction as_ as [|a l IH]; [reflexivity|]. cbn [map]. rewrite dot_cons, IH. reflexivity. Qed.
Lemma block_weight n as_ W x : is_mat n n W -> List.length x = n -> NoDup as_ -> Forall (fun a => (a < n)%nat) as_ -> only_weighs as_ W ->
  sq (mv W x) = sq (mv (block_at as_ W) (coords as_ x)).
Proof.
  intros [HW1 HW2] Hx ND F O. unfold sq. rewrite (dot_sum (mv W x) (mv W x) n) by now rewrite mv_length.
  assert (R : forall a, (a < n)%nat -> nth a (mv W x) 0 = dot (coords as_ (nth a W [])) (coords as_ x)).
  { intros a Ha. rewrite mv_nth by lia. rewrite dot_coords. rewrite (dot_sum _ _ n); [|rewrite Forall_forall in HW2; apply HW2, nth_In; lia|exact Hx]. apply sum_select; [exact ND|exact F|].
    intros b Hb. rewrite O by tauto. ring. }
  rewrite (sum_select _ n as_ ND F).
  - replace (mv (block_at as_ W) (coords as_ x)) with (coords as_ (mv W x)); [now rewrite dot_coords|]. unfold block_at, rows_at, mv at 2. rewrite !map_map. unfold coords at 1. apply map_ext_in. intros a Ha. apply R. rewrite Forall_forall in F. now apply F.
  - intros a Ha. destruct (Nat.lt_ge_cases a n) as [Hn|Hn]; [|rewrite nth_overflow by (rewrite mv_length; lia); ring].
    rewrite R by exact Hn. rewrite dot_coords. replace (vsum (map (fun b => nth b (nth a W []) 0 * nth b x 0) as_)) with 0; [ring|]. clear - O Ha. symmetry.
    assert (G : forall l, vsum (map (fun b => nth b (nth a W []) 0 * nth b x 0) l) = 0); [|apply G]. intros l. induction l as [|b l IH]; [reflexivity|]. cbn. rewrite IH, O by tauto. ring.
Qed.
Lemma coords_gained n as_ j j' e : j_gain j' = coords as_ (j_gain j) -> (forall x, j_gain_fn j' x = j_gain_fn j x) -> List.length e = n -> List.length (j_gain j) = n -> Forall (fun a => (a < n)%nat) as_ ->
  gained j' (coords as_ e) = coords as_ (gained j e).
Proof.
  intros Eg Ef He Hg F. unfold gained. rewrite Eg. apply (nth_ext _ _ 0 0); [rewrite coords_length, vmul_length; rewrite ?map_length, !coords_length; reflexivity|].
  intros i Hi. rewrite vmul_length in Hi by (rewrite map_length, !coords_length; reflexivity). rewrite map_length, coords_length in Hi.
  assert (Ha : (nth i as_ 0%nat < n)%nat) by (rewrite Forall_forall in F; apply F, nth_In; exact Hi).
  assert (K : forall (g : R -> R) (v : vec) k, (k < List.length v)%nat -> nth k (map g v) 0 = g (nth k v 0)) by (intros g v k Hk; rewrite (nth_indep _ 0 (g 0)) by (rewrite map_length; exact Hk); apply map_nth).
  assert (N : forall k (a b : vec), List.length a = List.length b -> nth k (vmul a b) 0 = nth k a 0 * nth k b 0).
  { clear. induction k as [|k IH]; intros [|x a] [|y b] H; try discriminate; cbn; try lra; injection H as H. now apply (IH a b). }
  rewrite N by (rewrite map_length, !coords_length; reflexivity). rewrite nth_coords by exact Hi. rewrite K by now rewrite coords_length. rewrite !nth_coords by exact Hi. rewrite N by (rewrite map_length; congruence). rewrite K by lia. now rewrite Ef.
Qed.
Lemma coords_vadd as_ a b : List.length a = List.length b -> coords as_ (vadd a b) = vadd (coords as_ a) (coords as_ b).
Proof. intros H. unfold coords. induction as_ as [|k r IH]; [reflexivity|]. cbn [map]. rewrite IH, nth_vadd by exact H. reflexivity. Qed.

Lemma masked_cost L nv as_ j j' d : masked as_ j j' -> j_model j' = j_model j -> weighs_selected as_ j j' -> fits L nv d j ->
  (forall J, jacobian L j d = Ok J -> jacobian L j' d = Ok (rows_at as_ J)) -> forall v x, cost_of L d j v x <-> cost_of L d j' v x.
Proof.
  intros Hm Em (Eg & Ef & W & lm & k & k' & E & E' & O) (J & e & EJ & Ee & MJ & Lg & FW) HJ v x. rewrite E in FW.
  destruct (masked_within _ _ _ Hm Em) as (n & Fa & ND & Ln & _). specialize (Ln _ _ _ Ee). rewrite Ln in *. pose proof (masked_value L as_ j j' d e Hm Em Ee) as Ee'. specialize (HJ _ EJ).
  pose proof (coords_gained n as_ j j' e Eg Ef Ln Lg Fa) as G.
  assert (Lgd : List.length (gained j e) = n) by (unfold gained; rewrite vmul_length; rewrite ?map_length; congruence).
  assert (Lmv : List.length (mv J v) = n) by (rewrite mv_length; apply MJ).
  assert (X : 1 / 2 * sq (mv W (vadd (mv J v) (gained j e))) + 1 / 2 * (lm * sq (mv W (gained j e))) * sq v =
    1 / 2 * sq (mv (block_at as_ W) (vadd (mv (rows_at as_ J) v) (gained j' (coords as_ e)))) + 1 / 2 * (lm * sq (mv (block_at as_ W) (gained j' (coords as_ e)))) * sq v).
  { rewrite G. rewrite (mv_rows n as_ J v (proj1 MJ) Fa). rewrite <- coords_vadd by congruence. rewrite <- !(block_weight n as_ W); auto. rewrite vadd_length; congruence. }
  split; intros H; inversion H; subst; try congruence.
  - replace (1 / 2 * sq (mv W0 (vadd (mv J0 v) (gained j e0))) + 1 / 2 * (lm0 * sq (mv W0 (gained j e0))) * sq v) with
      (1 / 2 * sq (mv (block_at as_ W) (vadd (mv (rows_at as_ J) v) (gained j' (coords as_ e)))) + 1 / 2 * (lm * sq (mv (block_at as_ W) (gained j' (coords as_ e)))) * sq v); [now apply (cost_task L d j' v (block_at as_ W) lm k')|].
    rewrite <- X. congruence.
  - replace (1 / 2 * sq (mv W0 (vadd (mv J0 v) (gained j' e0))) + 1 / 2 * (lm0 * sq (mv W0 (gained j' e0))) * sq v) with
      (1 / 2 * sq (mv W (vadd (mv J v) (gained j e))) + 1 / 2 * (lm * sq (mv W (gained j e))) * sq v); [now apply (cost_task L d j v W lm k)|].
    rewrite X. congruence.
Qed.

(** ** Best velocities *)
Lemma masked_best L nv q pd pd' : masks_idle pd pd' -> sound_jac (l_jacrev L) -> List.length q = m_nq (jd_model pd) -> Forall (fun j => j_model j = jd_model pd) (comps_of pd) -> Forall (fun j => j_model j = jd_model pd) (comps_of pd') ->
  let d := update L (jd_model pd) q in d_qpos d = q -> Forall (fits L nv d) (comps_of pd) ->
  Forall (fun j => automatic j -> smooth L j 3 q /\ kinematic L j) (comps_of pd) -> Forall (fun j => automatic j -> kinematic L j) (comps_of pd') ->
  forall v, best L d pd v <-> best L d pd' v.
Proof.
  intros (Em & E1 & E2 & F) Hs Hq M1 M2. cbv zeta. intros Hd Ff Fs Fk. set (d := update L (jd_model pd) q) in *.
  assert (C : Forall2 (fun j j' => (forall v x, cost_of L d j v x <-> cost_of L d j' v x) /\ (forall v, ((is_barrier j = true -> cbf L d v j) /\ (is_hard j = true -> holds_exactly L d v j)) <-> ((is_barrier j' = true -> cbf L d v j') /\ (is_hard j' = true -> holds_exactly L d v j')))) (comps_of pd) (comps_of pd')).
  { clear E1 E2. revert M1 M2 Ff Fs Fk. induction F as [|j j' js js' [<-|(as_ & Emm & Hm & Hw)] F IH]; intros M1 M2 Ff Fs Fk; [apply Forall2_nil|apply Forall2_cons; pose proof (Forall_inv M1) as A1; pose proof (Forall_inv M2) as A2; pose proof (Forall_inv Ff) as A3; pose proof (Forall_inv Fs) as A4; pose proof (Forall_inv Fk) as A5; specialize (IH (Forall_inv_tail M1) (Forall_inv_tail M2) (Forall_inv_tail Ff) (Forall_inv_tail Fs) (Forall_inv_tail Fk)); cbv beta in A1, A2, A4, A5; auto|apply Forall2_cons; pose proof (Forall_inv M1) as A1; pose proof (Forall_inv M2) as A2; pose proof (Forall_inv Ff) as A3; pose proof (Forall_inv Fs) as A4; pose proof (Forall_inv Fk) as A5; specialize (IH (Forall_inv_tail M1) (Forall_inv_tail M2) (Forall_inv_tail Ff) (Forall_inv_tail Fs) (Forall_inv_tail Fk)); cbv beta in A1, A2, A4, A5; auto].
    - split; intros; reflexivity.
    - split.
      + apply (masked_cost L nv as_); auto. intros J HJ. assert (D : automatic j \/ ~ automatic j) by (unfold automatic; destruct (j_ext j) as [? ? []|? []|? ? ? []]; tauto).
        destruct D as [Ha|Ha]; [|now apply (masked_jacobian L as_ j)]. assert (Mj : jd_model pd = j_model j) by congruence. unfold d in *. rewrite Mj in *.
        destruct (A4 Ha) as [Sm Kj]. apply (masked_jacobian_auto L as_ j j' q J); auto. apply A5. now apply (masked_automatic as_ j).
      + destruct Hw as (_ & _ & W & lm & k & k' & E & E' & _). intros v. unfold is_barrier, is_hard. rewrite E, E'. intuition discriminate. }
  assert (T : forall v x, total_cost L d (comps_of pd) v x <-> total_cost L d (comps_of pd') v x).
  { intros v x. unfold total_cost. clear - C. assert (G : forall xs, Forall2 (fun j y => cost_of L d j v y) (comps_of pd) xs <-> Forall2 (fun j y => cost_of L d j v y) (comps_of pd') xs).
    { induction C as [|j j' js js' [H _] C IH]; intros xs; [reflexivity|]. split; intros K; inversion K; subst; constructor; try (now apply H); now apply IH. }
    split; intros (xs & A & B); exists xs; (split; [now apply G|exact B]). }
  assert (A : forall v, admissible L d pd v <-> admissible L d pd' v).
  { intros v. unfold admissible. rewrite Em, E1, E2. assert (G : Forall (fun j => (is_barrier j = true -> cbf L d v j) /\ (is_hard j = true -> holds_exactly L d v j)) (comps_of pd) <-> Forall (fun j => (is_barrier j = true -> cbf L d v j) /\ (is_hard j = true -> holds_exactly L d v j)) (comps_of pd')); [|now rewrite G].
    clear - C. induction C as [|j j' js js' [_ H] C IH]; [split; constructor|]. split; intros K; inversion K; subst; (constructor; [now apply H|now apply IH]). }
  intros v. unfold best. rewrite A. split; intros (B1 & x & B2 & B3); (split; [exact B1|]); exists x; (split; [now apply T|]); intros w Hw; apply A in Hw; destruct (B3 w Hw) as (y & B4 & B5); exists y; (split; [now apply T|exact B5]).
Qed.
Lemma masked_same_cost L nv as_ j j' q : let d := update L (j_model j) q in masked as_ j j' -> j_model j' = j_model j -> weighs_selected as_ j j' -> fits L nv d j ->
  (automatic j -> sound_jac (l_jacrev L) /\ smooth L j 3 q /\ kinematic L j /\ kinematic L j' /\ List.length q = m_nq (j_model j) /\ d_qpos d = q) ->
  forall v x, cost_of L d j v x <-> cost_of L d j' v x.
Proof.
  cbv zeta. intros Hm Em Hw Hf Ha. apply (masked_cost L nv as_); auto. intros J HJ.
  assert (D : automatic j \/ ~ automatic j) by (unfold automatic; destruct (j_ext j) as [? ? []|? []|? ? ? []]; tauto).
  destruct D as [A|A]; [|now apply (masked_jacobian L as_ j)]. destruct (Ha A) as (H1 & H2 & H3 & H4 & H5 & H6). now apply (masked_jacobian_auto L as_ j j' q J).
Qed.
