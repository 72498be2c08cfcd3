(** What compiled object components hold, and their values. *)
From Verif Require Import Base Lin LinFacts Mjx Typing Component SpecComponent SpecJoint SpecHistory SpecCollision SpecTree SpecShape SpecContact SpecSelf Rot Conf FrameJac Collide JaxComponents SpecValue.
From Verif Require Import ComponentFacts ComponentFacts2 ApiSteps JointFacts BindFacts BindFacts2 BindFacts3 CompThms BindThms BindThms2 CollideFacts3.
From Verif Require Import QPFacts MotionFacts MotionFacts2 FrameFacts.
Open Scope R_scope.

(** ** Object ids *)
Definition id_ok (a : attrs) : Prop :=
  exists o, object_of a = Some o /\ forall m, a_model a = Some m -> sound_model m /\ has_object m (ob_type o) (ob_name o) (ob_id o).
Lemma astep_object a a' : astep a a' -> object_of a' = object_of a /\ a_model a' = a_model a.
Proof.
  intros H. destruct H; cbn; try (split; [|reflexivity]); unfold object_of; cbn; try rewrite H; try reflexivity.
  destruct (forced_other _ _ H) as (h1 & h2 & h3 & h4 & h5 & h6). rewrite h6. auto.
Qed.
Lemma id_ok_step a a' : id_ok a -> astep a a' -> id_ok a'.
Proof. intros (o & H & G) Hs. destruct (astep_object _ _ Hs) as [A B]. exists o. rewrite A, B. auto. Qed.
Lemma id_ok_bind c m : sound_model m -> fst (update_model m c) = Ok tt -> id_ok (c_at c) -> id_ok (c_at (snd (update_model m c))).
Proof.
  intros Hm Hu (o & Ho & _). pose proof Hm as (_ & _ & _ & Hn & _). destruct (object_binding m c o Hn Ho) as (A & _ & C). apply A in Hu. destruct Hu as [i Hi].
  destruct (C i Hi) as [D E]. eexists. split; [exact D|]. intros m' Hm'. rewrite E in Hm'. injection Hm' as <-. split; [exact Hm|exact Hi].
Qed.
Lemma id_ok_history c os : id_ok (c_at c) -> Forall (call_with sound_model) os -> binds_ok os c -> id_ok (c_at (history os c)).
Proof.
  intros H0 Ho Hb. eapply ok_history_with; eauto; [intros; eapply id_ok_step; eauto|intros; eapply id_ok_bind; eauto].
Qed.
Lemma id_ok_new a o : object_of a = Some o -> a_model a = None -> id_ok a.
Proof. intros H N. exists o. split; [exact H|]. intros m Hm. congruence. Qed.

Lemma calls_api (Q : mjmodel -> Prop) os : Forall (call_with Q) os -> Forall api_op os.
Proof. intros H. eapply Forall_impl; [|exact H]. intros [] ; cbn; auto. Qed.
Lemma model_bound (P : mjmodel -> Prop) os c : a_model (c_at c) = None -> Forall (call_with P) os -> binds_ok os c ->
  (forall c m, a_model (c_at (snd (update_model m c))) = a_model (c_at c) \/ a_model (c_at (snd (update_model m c))) = Some m) ->
  forall m, a_model (c_at (history os c)) = Some m -> P m.
Proof.
  intros H0 Ho Hb Hu. eapply (ok_history_with P (fun a => forall m, a_model a = Some m -> P m)); eauto.
  - intros m H. congruence.
  - intros a a' H Hs m Hm. destruct (astep_object _ _ Hs) as [_ B]. rewrite B in Hm. auto.
  - intros c' m Hq _ H m' Hm'. destruct (Hu c' m) as [E|E]; rewrite E in Hm'; [auto|]. injection Hm' as <-. exact Hq.
Qed.

(** ** Selected axes *)
Lemma combine_map_fst {A B} (f : A -> B) (l : list A) : combine l (map f l) = map (fun x => (x, f x)) l.
Proof. induction l as [|x l IH]; cbn; [reflexivity|]. now rewrite IH. Qed.
Lemma filter_map_pair {A B} (f : A -> B) (g : B -> bool) l : map fst (filter (fun p => g (snd p)) (map (fun x => (x, f x)) l)) = filter (fun x => g (f x)) l.
Proof. induction l as [|x l IH]; cbn; [reflexivity|]. destruct (g (f x)); cbn; now rewrite IH. Qed.
Lemma argwhere_axes l : argwhere l = map Z.of_nat (filter (fun i => negb (nth i l 0 =? 0)%Z) (seq 0 (List.length l))).
Proof.
  unfold argwhere. rewrite <- map_map. f_equal. replace l with (map (fun i => nth i l 0%Z) (seq 0 (List.length l))) at 2.
  - rewrite combine_map_fst. apply (filter_map_pair (fun i => nth i l 0%Z) (fun x => negb (x =? 0)%Z)).
  - apply (nth_ext _ _ 0%Z 0%Z); [now rewrite map_length, seq_length|]. intros k Hk. rewrite map_length, seq_length in Hk.
    set (F := fun i => nth i l 0%Z). rewrite (nth_indep _ 0%Z (F 0%nat)) by (now rewrite map_length, seq_length). rewrite map_nth, seq_nth by exact Hk. reflexivity.
Qed.
Lemma idxs_axes n mk : idxs_of (mk_opt mk) n = map Z.of_nat (axes n mk).
Proof. destruct mk as [k|]; cbn; [apply argwhere_axes|reflexivity]. Qed.
Lemma idxs_axes_any n d mk : d = task_dim n mk -> idxs_of (mk_opt mk) d = map Z.of_nat (axes n mk).
Proof. intros ->. destruct mk as [k|]; cbn; [apply argwhere_axes|reflexivity]. Qed.
Lemma task_dim_axes n mk : task_dim n mk = List.length (axes n mk).
Proof. destruct mk as [k|]; cbn; [now rewrite argwhere_axes, map_length|now rewrite seq_length]. Qed.
Lemma axes_within n mk : mask_within n mk -> Forall (fun a => (a < n)%nat) (axes n mk).
Proof.
  destruct mk as [k|]; cbn; intros H; apply Forall_forall; intros a Ha; [apply filter_In in Ha; destruct Ha as [Ha _]|]; apply in_seq in Ha; lia.
Qed.
Lemma coords_length as_ x : List.length (coords as_ x) = List.length as_. Proof. apply map_length. Qed.
Lemma gather_coords as_ (x : vec) n : List.length x = n -> Forall (fun a => (a < n)%nat) as_ -> jx_gather x (map Z.of_nat as_) = Ok (coords as_ x).
Proof. intros <- H. now apply gather_in. Qed.

(** ** Position of an object *)
Lemma get_pos_spec m d ty i : wf_data m d -> has_pose ty -> (i < count m ty)%nat -> get_pos d (Z.of_nat i) ty = Ok (position d ty i) /\ List.length (position d ty i) = 3%nat.
Proof.
  intros (_ & X & _ & _ & _ & G & _ & S & _) Hp Hi.
  assert (K : forall (M : mat) r, is_mat r 3 M -> (i < r)%nat -> jx_idx M (Z.of_nat i) = Ok (nth i M []) /\ List.length (nth i M []) = 3%nat).
  { intros M r HM Hr. pose proof HM as [LM _]. split; [apply jx_idx_in; lia|now apply (mat_in (r := r))]. }
  destruct ty; cbn in *; try contradiction; eapply K; eassumption.
Qed.
Lemma named_object m ty s i : sound_model m -> has_pose ty -> has_object m ty s i -> exists k, i = Z.of_nat k /\ (k < count m ty)%nat.
Proof.
  intros (_ & _ & _ & (N0 & _) & Hc & _) Hp Hi. pose proof (N0 _ _ _ Hi). pose proof (Hc _ _ _ Hp Hi). exists (Z.to_nat i). split; lia.
Qed.

(** ** Position task *)
Definition pt_facts (mk : option marr) (on : string) (ty : objtype) (j : jaxc) : Prop :=
  sound_model (j_model j) /\ j_dim j = Z.of_nat (List.length (axes 3 mk)) /\ j_mask_idxs j = map Z.of_nat (axes 3 mk) /\
  List.length (j_gain j) = List.length (axes 3 mk) /\
  exists W lm t i, j_ext j = JTask W lm (JTPos i ty t) /\ has_object (j_model j) ty on i /\ last_dim t = Ok (List.length (axes 3 mk)).
Lemma position_task_facts mk on ty j : position_task mk on ty j -> pt_facts mk on ty j.
Proof.
  intros (name & cost & gain & gf & lm & c & Hn & os & Ho & Hb & Hj).
  apply published_reachable in Hj; [|eapply made_position_task; exact Hn]. pose proof Hj as (P1 & P2 & P3 & P4 & P5 & P6 & P7).
  pose proof (pos_inv_new _ _ _ _ _ _ _ _ _ Hn) as I0.
  assert (I : pos_inv (mk_opt mk) (task_dim 3 mk) on ty (c_at (history os c))).
  { eapply api_history; [eapply calls_api; exact Ho|exact I0|intros; eapply pos_inv_step; eauto|intros; eapply pos_inv_bind; eauto]. }
  assert (O : id_ok (c_at (history os c))).
  { apply id_ok_history; [|exact Ho|exact Hb]. destruct I0 as (_ & _ & co & l & t & i & He & _). apply (id_ok_new _ (mkO on ty i)); [unfold object_of; now rewrite He|].
    unfold new_position_task in Hn. destruct (init_task name cost gain gf lm mk _) as [a|] eqn:E; [|discriminate]. injection Hn as <-. cbn. eapply init_task_mask; exact E. }
  destruct I as (D & M & co & l & t & i & He & Ht). destruct O as (o & Eo & Go). unfold object_of in Eo. rewrite He in Eo. injection Eo as <-. destruct (Go _ P3) as [S H]. cbn in H.
  rewrite (mask_state_read _ _ _ D M) in P6. apply Ok_inj in P6. rewrite (idxs_axes_any 3 _ mk eq_refl) in P6.
  unfold pt_facts. rewrite <- task_dim_axes. split; [exact S|]. split; [congruence|]. split; [congruence|]. split; [eapply vector_gain_length; eauto|].
  inversion P7 as [|? ? o' t' W' He' Hw| | | | | | | | |]; try congruence. rewrite He in He'. injection He' as <- <- <- <-. do 4 eexists. split; [reflexivity|]. split; [exact H|exact Ht].
Qed.
Lemma position_task_value L mk on ty j t d : position_task mk on ty j -> has_pose ty -> target_is j t -> wf_data (j_model j) d -> mask_within 3 mk ->
  exists i, has_object (j_model j) ty on (Z.of_nat i) /\ List.length t = List.length (axes 3 mk) /\
    j_dim j = Z.of_nat (List.length (axes 3 mk)) /\ call L j d = Ok (vsub (coords (axes 3 mk) (position d ty i)) t).
Proof.
  intros Hj Hp Ht Hd Hmk. destruct (position_task_facts _ _ _ _ Hj) as (S & D & M & G & W & lm & t' & i & E & Hi & Lt).
  destruct (named_object _ _ _ _ S Hp Hi) as (k & -> & Hk). exists k. split; [exact Hi|].
  destruct Ht as [(W' & lm' & E')|(W' & lm' & o' & ty' & E')]; rewrite E in E'; [discriminate|]. injection E' as -> -> <- <- ->. rewrite last_dim_vec in Lt. injection Lt as Lt. split; [exact Lt|]. split; [exact D|].
  unfold call. rewrite E. unfold call_pos. destruct (get_pos_spec _ _ _ _ Hd Hp Hk) as [Ep Lp]. rewrite Ep. cbn [bind]. rewrite M. rewrite (gather_coords _ _ 3 Lp (axes_within 3 mk Hmk)). cbn [bind vec_of ndim t_shape tvec List.length t_data].
  apply bc2_eq. rewrite coords_length. now symmetry.
Qed.
Lemma vsub_zero a b : List.length a = List.length b -> (vsub a b = vzero (List.length a) <-> a = b).
Proof.
  unfold vsub, vmap2, vzero. revert b. induction a as [|x a IH]; intros [|y b] H; try discriminate; [split; auto|]. injection H as H. cbn. split; intros E.
  - injection E as E1 E2. f_equal; [lra|]. now apply IH.
  - injection E as <- <-. f_equal; [lra|]. now apply (IH a).
Qed.

(** ** Centre-of-mass task *)
Definition ct_facts (mk : option marr) (j : jaxc) : Prop :=
  sound_model (j_model j) /\ j_dim j = Z.of_nat (List.length (axes 3 mk)) /\ j_mask_idxs j = map Z.of_nat (axes 3 mk) /\
  List.length (j_gain j) = List.length (axes 3 mk) /\
  exists W lm t, j_ext j = JTask W lm (JTCom t) /\ last_dim t = Ok (List.length (axes 3 mk)).
Lemma com_task_within name cost gain gf lm mk c : new_com_task name cost gain gf lm mk = Ok c -> wf_mask mk -> mask_within 3 mk.
Proof.
  unfold new_com_task. destruct mk as [k|]; [|intros; exact I]. destruct (mk_shape k) as [|n s] eqn:E; [discriminate|]. destruct (Nat.eqb_spec n 3); [|discriminate]. cbn [bind].
  destruct (init_task name cost gain gf lm (Some k) _) as [a|] eqn:Ei; [|discriminate]. intros _ Hw. destruct (init_task_mask _ _ _ _ _ _ _ _ Ei) as (_ & _ & _ & _ & _ & _ & _ & _ & _ & Hs).
  unfold wf_mask, mask_within in *. rewrite E in *. destruct s; [|cbn in Hs; discriminate]. cbn in Hw. lia.
Qed.
Lemma com_bind_model mk0 d c m : com_inv mk0 d (c_at c) -> a_model (c_at (snd (update_model m c))) = Some m.
Proof. intros (_ & _ & cost & lm & t & He & _). unfold update_model, mbind, read. rewrite He. reflexivity. Qed.
Lemma com_task_facts mk j : com_task mk j -> ct_facts mk j.
Proof.
  intros (name & cost & gain & gf & lm & c & Hn & os & Ho & Hb & Hj).
  apply published_reachable in Hj; [|eapply made_com_task; exact Hn]. pose proof Hj as (P1 & P2 & P3 & P4 & P5 & P6 & P7).
  pose proof (com_inv_new _ _ _ _ _ _ _ Hn) as I0.
  assert (N0 : a_model (c_at c) = None).
  { unfold new_com_task in Hn; match type of Hn with bind ?X _ = _ => destruct X as [u|]; [|discriminate] end; cbn [bind] in Hn. destruct (init_task name cost gain gf lm mk _) as [a|] eqn:E; [|discriminate]. injection Hn as <-. cbn. eapply init_task_mask; exact E. }
  assert (I : com_inv (mk_opt mk) (task_dim 3 mk) (c_at (history os c)) /\ forall m, a_model (c_at (history os c)) = Some m -> sound_model m).
  { eapply (ok_history_with sound_model (fun a => com_inv (mk_opt mk) (task_dim 3 mk) a /\ forall m, a_model a = Some m -> sound_model m)); eauto.
    - split; [exact I0|]. intros m H. congruence.
    - intros a a' [H1 H2] Hs. split; [eapply com_inv_step; eauto|]. destruct (astep_object _ _ Hs) as [_ ->]. exact H2.
    - intros c' m Hq _ [H1 H2]. split; [now apply com_inv_bind|]. rewrite (com_bind_model _ _ _ m H1). intros m' Hm. injection Hm as <-. exact Hq. }
  destruct I as ((D & M & co & l & t & He & Ht) & S). specialize (S _ P3).
  rewrite (mask_state_read _ _ _ D M) in P6. apply Ok_inj in P6. rewrite (idxs_axes_any 3 _ mk eq_refl) in P6.
  unfold ct_facts. rewrite <- task_dim_axes. split; [exact S|]. split; [congruence|]. split; [congruence|]. split; [eapply vector_gain_length; eauto|].
  inversion P7 as [? ? t' W' He' Hw| | | | | | | | | |]; try congruence. rewrite He in He'. injection He' as <- <- <-. do 3 eexists. split; [reflexivity|exact Ht].
Qed.
Lemma sound_root m : sound_model m -> np_idx (m_body_rootid m) 0 = Ok 0%Z /\ (0 < m_nbody m)%nat.
Proof.
  intros ((_ & (N & _) & _ & Lr & _) & _ & _ & _ & _ & _ & R). split; [|exact N]. rewrite (np_idx_Z _ _ 0%Z) by (unfold in_range; lia). cbn. now rewrite R.
Qed.
Lemma com_task_value L mk j t d : com_task mk j -> wf_mask mk -> target_is j t -> wf_data (j_model j) d ->
  List.length t = List.length (axes 3 mk) /\ j_dim j = Z.of_nat (List.length (axes 3 mk)) /\ call L j d = Ok (vsub (coords (axes 3 mk) (robot_com d)) t).
Proof.
  intros Hj Hw Ht Hd. pose proof Hj as (name & cost & gain & gf & lm & c & Hn & _). pose proof (com_task_within _ _ _ _ _ _ _ Hn Hw) as Hmk.
  destruct (com_task_facts _ _ Hj) as (S & D & M & G & W & lm' & t' & E & Lt).
  destruct Ht as [(W' & lm'' & E')|(W' & lm'' & o' & ty' & E')]; rewrite E in E'; [|discriminate]. injection E' as -> -> ->. rewrite last_dim_vec in Lt. injection Lt as Lt. split; [exact Lt|]. split; [exact D|].
  destruct (sound_root _ S) as [Er Nb]. pose proof Hd as (_ & _ & _ & _ & _ & _ & _ & _ & _ & Sc & _). pose proof Sc as [Ls _].
  unfold call. rewrite E. unfold call_com. rewrite Er. cbn [bind]. rewrite (jx_idx_Z _ _ []) by (unfold in_range; lia). cbn [bind].
  assert (Lc : List.length (nth (Z.to_nat 0) (d_subtree_com d) []) = 3%nat) by (apply (mat_in (r := m_nbody (j_model j))); [exact Sc|exact Nb]).
  rewrite M. rewrite (gather_coords _ _ 3 Lc (axes_within 3 mk Hmk)). cbn [bind vec_of ndim t_shape tvec List.length t_data].
  apply bc2_eq. rewrite coords_length. now symmetry.
Qed.
