(** Position barriers, frame tasks and equality constraints: what they hold and their values. *)
From Verif Require Import Base Lin LinFacts Mjx Typing Component SpecComponent SpecJoint SpecHistory SpecCollision SpecTree SpecShape SpecContact SpecSelf SpecMotion Rot Conf FrameJac Collide JaxComponents SpecValue.
From Verif Require Import ComponentFacts ComponentFacts2 ApiSteps JointFacts BindFacts BindFacts2 BindFacts3 CompThms BindThms BindThms2 CollideFacts3.
From Verif Require Import QPFacts MotionFacts MotionFacts2 FrameFacts ValueFacts.
Open Scope R_scope.

Lemma run_init_steps c m c' : (forall c, asteps (c_at c) (c_at (snd (m c)))) -> run_init c m = Ok c' -> asteps (c_at c) (c_at c').
Proof. intros H. unfold run_init. specialize (H c). destruct (m c) as [[u|e] c2]; intros E; [|discriminate]. injection E as <-. exact H. Qed.

(** ** Position barrier *)
Definition lt_name (lt : limit_type) : string := match lt with LMin => "min" | LMax => "max" | LBoth => "both" end.
Lemma pbar_new_from name gain on ty lo hi lts gf sdg mk c :
  new_position_barrier name gain on ty lo hi lts gf sdg mk = Ok c ->
  let l := match mk with Some k => mk_data k | None => [1%Z; 1%Z; 1%Z] end in
  let n := List.length (argwhere l) in
  exists lt a0, from_str lts = Ok lt /\ lts = lt_name lt /\ a_model a0 = None /\ a_mask_idxs a0 = argwhere l /\
   a_ext a0 = XBarrier sdg (BPos (mkPB (mkO on ty (-1)) lt (pb_idxs lt n) (tvec (vzero n)) (tvec (vzero n)))) /\ asteps a0 (c_at c).
Proof.
  unfold new_position_barrier, init_barrier, init_component.
  set (k := match mk with Some k => k | None => mvec [1%Z; 1%Z; 1%Z] end).
  assert (Hk : match mk with Some k => mk_data k | None => [1%Z; 1%Z; 1%Z] end = mk_data k) by (destruct mk; reflexivity).
  rewrite Hk. clear Hk.
  destruct (Nat.ltb 1 (ndim gain)); cbn; [discriminate|].
  destruct (negb (Nat.eqb (List.length (mk_shape k)) 1)); cbn; [discriminate|].
  destruct (negb _) eqn:En; [discriminate|]. apply negb_false_iff in En.
  destruct (from_str lts) as [lt|] eqn:Ef; cbn; [|discriminate].
  assert (Hname : lts = lt_name lt).
  { apply orb_prop in En. destruct En as [En|En]; [apply orb_prop in En; destruct En as [En|En]|]; apply String.eqb_eq in En; subst lts; injection Ef as <-; reflexivity. }
  intros H.
  set (n := List.length (argwhere (mk_data k))) in *.
  set (st := fun x y => mkA name None gain (match gf with Some f => f | None => fun x => x end) (Z.of_nat (pb_dim lt n))
     (Some (mk_data k)) (argwhere (mk_data k)) (XBarrier sdg (BPos (mkPB (mkO on ty (-1)) lt (pb_idxs lt n) x y)))).
  assert (H' : (do c1 <- match lo with None => Ok (new_comp (st (tvec (vzero n)) (tvec (vzero n)))) | Some x => run_init (new_comp (st (tvec (vzero n)) (tvec (vzero n)))) (update_p_min x) end;
    match hi with None => Ok c1 | Some x => run_init c1 (update_p_max x) end) = Ok c).
  { rewrite <- H. unfold st. destruct lt; cbn [pb_dim pb_idxs]; try reflexivity.
    replace (Z.of_nat (2 * n)) with (2 * Z.of_nat n)%Z by lia. reflexivity. }
  exists lt, (st (tvec (vzero n)) (tvec (vzero n))). split; [reflexivity|]. split; [exact Hname|]. split; [reflexivity|]. split; [reflexivity|]. split; [reflexivity|].
  clear H. destruct (match lo with None => _ | Some _ => _ end) as [c1|] eqn:E1; cbn [bind] in H'; [|discriminate].
  assert (A1 : asteps (st (tvec (vzero n)) (tvec (vzero n))) (c_at c1)).
  { destruct lo as [x|]; [|injection E1 as <-; apply asteps_refl]. exact (run_init_steps _ _ _ (fun c => pmin_steps x c) E1). }
  destruct hi as [x|]; [|injection H' as <-; exact A1].
  eapply asteps_trans; [exact A1|]. exact (run_init_steps _ _ _ (fun c => pmax_steps x c) H').
Qed.

(** The limit a barrier does not use keeps its initial value. *)
Definition pbar_side (lt : limit_type) (n : nat) (a : attrs) : Prop :=
  exists s p, a_ext a = XBarrier s (BPos p) /\ pb_lt p = lt /\ (includes_max lt = false -> pb_max p = tvec (vzero n)) /\ (includes_min lt = false -> pb_min p = tvec (vzero n)).
Lemma pbar_side_step lt n a a' : pbar_side lt n a -> astep a a' -> pbar_side lt n a'.
Proof.
  intros (s & p & He & Hl & Hx & Hn) Hs. destruct Hs; try (rewrite He in *; discriminate); cbn; try (exists s, p; cbn; auto; fail).
  - rewrite He in H. injection H as -> ->. exists s0. eexists. split; [reflexivity|]. cbn. repeat split; auto. intros G. congruence.
  - rewrite He in H. injection H as -> ->. exists s0. eexists. split; [reflexivity|]. cbn. repeat split; auto. intros G. congruence.
  - destruct (forced_other _ _ H) as (_ & _ & _ & _ & _ & E). exists s, p. rewrite E. auto.
Qed.
Lemma pbar_side_bind lt n c m : pbar_side lt n (c_at c) -> pbar_side lt n (c_at (snd (update_model m c))).
Proof.
  intros (s & p & He & Hl & Hx & Hn).
  assert (Ho : object_of (c_at c) = Some (pb_obj p)) by (unfold object_of; now rewrite He).
  rewrite (obj_bind m c _ Ho).
  assert (G : forall j, pbar_side lt n (set_obj_id (c_at c) j)).
  { intros k. unfold set_obj_id. rewrite He. exists s. eexists. split; [reflexivity|]. cbn. auto. }
  destruct (_ =? _)%Z; cbn; [apply G|]. destruct (G (name2id m (ob_type (pb_obj p)) (ob_name (pb_obj p)))) as (s' & p' & a1 & a2 & a3).
  exists s', p'. split; [exact a1|auto].
Qed.

Lemma default_axes mk : argwhere (match mk with Some k => mk_data k | None => [1%Z; 1%Z; 1%Z] end) = map Z.of_nat (axes 3 mk).
Proof. destruct mk; [apply argwhere_axes|reflexivity]. Qed.
Definition pb_facts (mk : option marr) (on : string) (ty : objtype) (lts : string) (j : jaxc) : Prop :=
  let n := List.length (axes 3 mk) in
  sound_model (j_model j) /\ j_mask_idxs j = map Z.of_nat (axes 3 mk) /\ List.length (j_gain j) = barrier_size lts n /\
  j_dim j = Z.of_nat (barrier_size lts n) /\
  exists lt sdg lo hi i, lts = lt_name lt /\ barrier_size lts n = pb_dim lt n /\
   j_ext j = JBarrier sdg (JBPos i ty lo hi (pb_idxs lt n)) /\ has_object (j_model j) ty on i /\ last_dim lo = Ok n /\ last_dim hi = Ok n /\
   (includes_max lt = false -> hi = tvec (vzero n)) /\ (includes_min lt = false -> lo = tvec (vzero n)).
Lemma name_size lt n : barrier_size (lt_name lt) n = pb_dim lt n. Proof. now destruct lt. Qed.
Lemma position_barrier_facts mk on ty lts j : position_barrier mk on ty lts j -> pb_facts mk on ty lts j.
Proof.
  intros (name & gain & lo & hi & gf & sdg & c & Hn & os & Ho & Hb & Hj).
  apply published_reachable in Hj; [|eapply made_position_barrier; exact Hn]. pose proof Hj as (P1 & P2 & P3 & P4 & P5 & P6 & P7).
  destruct (pbar_history _ _ _ _ _ _ _ _ _ _ _ os Hn (calls_api _ _ Ho)) as (lt & Hlt & I).
  destruct (pbar_new_from _ _ _ _ _ _ _ _ _ _ _ Hn) as (lt' & a0 & Hlt' & Nm & M0 & X0 & E0 & S0). assert (lt' = lt) by congruence. subst lt'.
  set (n := List.length (argwhere (match mk with Some k => mk_data k | None => [1%Z; 1%Z; 1%Z] end))) in *.
  assert (Sd : pbar_side lt n (c_at (history os c))).
  { eapply api_history; [eapply calls_api; exact Ho| |intros; eapply pbar_side_step; eauto|intros; eapply pbar_side_bind; eauto].
    eapply asteps_inv; [|exact S0|]; [intros; eapply pbar_side_step; eauto|]. exists sdg. eexists. split; [exact E0|]. cbn. auto. }
  assert (O : id_ok (c_at (history os c))).
  { apply id_ok_history; [|exact Ho|exact Hb]. eapply asteps_inv; [|exact S0|]; [intros; eapply id_ok_step; eauto|]. eapply id_ok_new; [unfold object_of; rewrite E0; reflexivity|exact M0]. }
  destruct I as (D & M & i & l & h & He & Hl & Hh). fold n in D, M, He, Hl, Hh.
  destruct O as (o & Eo & Go). unfold object_of in Eo. rewrite He in Eo. injection Eo as <-. destruct (Go _ P3) as [S H]. cbn in H.
  destruct Sd as (s' & p' & E' & _ & Sx & Sn). rewrite He in E'. injection E' as <- <-. cbn in Sx, Sn.
  rewrite (mask_state_read _ _ _ D M) in P6. apply Ok_inj in P6. cbn [idxs_of] in P6. rewrite default_axes in P6.
  assert (En : n = List.length (axes 3 mk)) by (unfold n; now rewrite default_axes, map_length).
  unfold pb_facts. rewrite <- En. split; [exact S|]. split; [congruence|]. rewrite Nm, name_size. split; [eapply vector_gain_length; eauto|]. split; [congruence|].
  inversion P7 as [| | | | |s2 o2 lt2 li2 lo2 hi2 He2 Hid| | | | |]; try congruence. rewrite He in He2. injection He2 as <- <- <- <- <- <-.
  exists lt. do 4 eexists. split; [reflexivity|]. split; [reflexivity|]. split; [reflexivity|]. split; [exact H|]. auto.
Qed.


Lemma gather_range {A} (l : list A) (d : A) a b : (a <= b)%nat -> (b <= List.length l)%nat ->
  jx_gather l (zrange (Z.of_nat a) (Z.of_nat b)) = Ok (firstn (b - a) (skipn a l)).
Proof.
  intros Hab Hb. unfold zrange. replace (Z.to_nat (Z.of_nat b - Z.of_nat a)) with (b - a)%nat by lia.
  replace (map (fun k => (Z.of_nat a + Z.of_nat k)%Z) (seq 0 (b - a))) with (map Z.of_nat (seq a (b - a))).
  - rewrite (gather_in l _ d) by (apply Forall_forall; intros i Hi; apply in_seq in Hi; lia). f_equal.
    apply (nth_ext _ _ d d); [rewrite map_length, seq_length, firstn_length, skipn_length; lia|]. intros k Hk. rewrite map_length, seq_length in Hk.
    set (F := fun i => nth i l d). rewrite (nth_indep _ d (F 0%nat)) by (rewrite map_length, seq_length; exact Hk). rewrite map_nth, seq_nth by exact Hk. unfold F.
    rewrite <- (firstn_skipn a l) at 1. rewrite app_nth2 by (rewrite firstn_length; lia). rewrite firstn_length. replace (a + k - Nat.min a (List.length l))%nat with k by lia.
    rewrite <- (firstn_skipn (b - a) (skipn a l)) at 1. rewrite app_nth1; [reflexivity|]. rewrite firstn_length, skipn_length. lia.
  - apply (nth_ext _ _ 0%Z 0%Z); [now rewrite !map_length, !seq_length|]. intros k Hk. rewrite map_length, seq_length in Hk.
    rewrite (nth_indep _ 0%Z (Z.of_nat 0)) by (rewrite map_length, seq_length; exact Hk). rewrite map_nth, seq_nth by exact Hk.
    set (F := fun i => (Z.of_nat a + Z.of_nat i)%Z). rewrite (nth_indep (map F _) (Z.of_nat 0) (F 0%nat)) by (rewrite map_length, seq_length; exact Hk). rewrite map_nth, seq_nth by exact Hk. unfold F. lia.
Qed.
Lemma pick_sides (a b : vec) n lt : List.length a = n -> List.length b = n ->
  jx_gather (a ++ b) (pb_idxs lt n) = Ok (match lt with LMin => a | LMax => b | LBoth => a ++ b end).
Proof.
  intros La Lb. assert (Lab : List.length (a ++ b) = (2 * n)%nat) by (rewrite app_length; lia).
  destruct lt; cbn [pb_idxs].
  - rewrite (gather_range _ 0 0 n) by lia. cbn [skipn]. rewrite Nat.sub_0_r, firstn_app, <- La, Nat.sub_diag, firstn_all. cbn. now rewrite app_nil_r.
  - replace (2 * Z.of_nat n)%Z with (Z.of_nat (2 * n)) by lia. rewrite (gather_range _ 0 n (2 * n)) by lia. rewrite skipn_app, <- La, skipn_all, Nat.sub_diag. cbn [skipn app].
    rewrite La. replace (2 * n - n)%nat with (List.length b) by lia. now rewrite firstn_all.
  - replace (2 * Z.of_nat n)%Z with (Z.of_nat (2 * n)) by lia. rewrite (gather_range _ 0 0 (2 * n)) by lia. cbn [skipn]. rewrite Nat.sub_0_r, <- Lab. now rewrite firstn_all.
Qed.

Lemma tvec_length v n : last_dim (tvec v) = Ok n -> List.length v = n.
Proof. rewrite last_dim_vec. intros H. now injection H. Qed.
Lemma position_barrier_value L mk on ty lts j lo hi d : position_barrier mk on ty lts j -> has_pose ty -> p_limits_are lts j lo hi -> wf_data (j_model j) d -> mask_within 3 mk ->
  exists i h, has_object (j_model j) ty on (Z.of_nat i) /\ call L j d = Ok h /\ List.length h = barrier_size lts (List.length (axes 3 mk)) /\
    j_dim j = Z.of_nat (barrier_size lts (List.length (axes 3 mk))) /\
    (vnonneg h <-> inside lts lo hi (coords (axes 3 mk) (position d ty i))) /\
    (lts <> "max"%string -> lts <> "min"%string -> h = vsub (coords (axes 3 mk) (position d ty i)) lo ++ vsub hi (coords (axes 3 mk) (position d ty i))) /\
    (lts = "min"%string -> h = vsub (coords (axes 3 mk) (position d ty i)) lo) /\ (lts = "max"%string -> h = vsub hi (coords (axes 3 mk) (position d ty i))).
Proof.
  intros Hj Hp Hl Hd Hmk. destruct (position_barrier_facts _ _ _ _ _ Hj) as (S & M & G & D & lt & sdg & lo' & hi' & i & Nm & Sz & E & Hi & Llo & Lhi & Zx & Zn).
  destruct (named_object _ _ _ _ S Hp Hi) as (k & -> & Hk). exists k.
  destruct Hl as (sdg2 & o2 & ty2 & l2 & h2 & li2 & E2 & Hlo & Hhi). rewrite E in E2. injection E2 as <- <- <- <- <- <-.
  destruct (get_pos_spec _ _ _ _ Hd Hp Hk) as [Ep Lp]. set (x := coords (axes 3 mk) (position d ty k)).
  assert (Lx : List.length x = List.length (axes 3 mk)) by apply coords_length. set (n := List.length (axes 3 mk)) in *.
  assert (K : forall a b, List.length a = n -> List.length b = n -> lo' = tvec a -> hi' = tvec b ->
    call L j d = Ok (match lt with LMin => vsub x a | LMax => vsub b x | LBoth => vsub x a ++ vsub b x end)).
  { intros a b La Lb -> ->. unfold call. rewrite E. unfold call_pbar. rewrite Ep. cbn [bind]. rewrite M, (gather_coords _ _ 3 Lp (axes_within 3 mk Hmk)). fold x.
    cbn [bind vec_of ndim t_shape tvec List.length t_data]. rewrite !bc2_eq by congruence. cbn [bind]. apply (pick_sides (vsub x a) (vsub b x) n); [rewrite vsub_length|rewrite vsub_length]; congruence. }
  rewrite D, Sz. subst lts.
  destruct lt; cbn [lt_name pb_dim] in *.
  - specialize (Hlo ltac:(discriminate)). specialize (Zx eq_refl). subst lo' hi'. apply tvec_length in Llo. eexists. split; [exact Hi|]. split; [apply (K lo (vzero n)); auto; apply vzero_length|].
    split; [rewrite vsub_length; congruence|]. split; [reflexivity|]. split; [|repeat split; intros; congruence]. rewrite vnonneg_sub by congruence. unfold inside. split; [intros V; split; [auto|congruence]|]. intros [V _]. apply V. discriminate.
  - specialize (Hhi ltac:(discriminate)). specialize (Zn eq_refl). subst lo' hi'. apply tvec_length in Lhi. eexists. split; [exact Hi|]. split; [apply (K (vzero n) hi); auto; apply vzero_length|].
    split; [rewrite vsub_length; congruence|]. split; [reflexivity|]. split; [|repeat split; intros; congruence]. rewrite vnonneg_sub by congruence. unfold inside. split; [intros V; split; [congruence|auto]|]. intros [_ V]. apply V. discriminate.
  - specialize (Hlo ltac:(discriminate)). specialize (Hhi ltac:(discriminate)). subst lo' hi'. apply tvec_length in Llo. apply tvec_length in Lhi. eexists. split; [exact Hi|]. split; [apply (K lo hi); auto|].
    split; [rewrite app_length, !vsub_length; [lia|congruence|congruence]|]. split; [reflexivity|]. split; [|repeat split; intros; congruence]. unfold vnonneg. rewrite Forall_app. fold (vnonneg (vsub x lo)) (vnonneg (vsub hi x)). rewrite !vnonneg_sub by congruence. unfold inside.
    split; [intros [V1 V2]; split; auto|]. intros [V1 V2]. split; [apply V1|apply V2]; discriminate.
Qed.
