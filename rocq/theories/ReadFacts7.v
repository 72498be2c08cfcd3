(** What the constructor was given and no method changes, read back later. *)
From Verif Require Import Base Lin LinFacts Mjx Typing Component SpecComponent ComponentFacts ComponentFacts2 BindFacts2 SpecHistory SpecSettings SettingFacts SettingThms Read SpecRead ReadFacts ReadFacts2 ReadFacts3 ReadFacts4 ReadFacts5 SpecGiven.
Open Scope nat_scope.

(** The attributes with no setter, from the four fixed settings. *)
Definition fixed_value (nm : string) (gf : R -> R) (k : class) (e : option R) (x : attribute) : option value :=
  match x, k, e with
  | AName, _, _ => Some (VString nm)
  | AGainFn, _, _ => Some (VFun gf)
  | ALmDamping, (KCom | KPos _ _ | KFrame _ _ | KJoint _ | KCustomT _), Some r => Some (VReal r)
  | ASafeDisplacementGain, (KPosBarrier _ _ _ | KJointBarrier _ | KSelf _ _ | KCustomB _), Some r => Some (VReal r)
  | AObjName, (KPos n _ | KFrame n _ | KPosBarrier n _ _), _ => Some (VString n)
  | AObjType, (KPos _ t | KFrame _ t | KPosBarrier _ t _), _ => Some (VObjType t)
  | ALimitType, KPosBarrier _ _ l, _ => Some (VLimit l)
  | ADMin, KSelf d _, _ => Some (VReal d)
  | AActive, (KEquality a _ _ | KCustomC a _ _ _), _ => Some (VBool a)
  | AHard, (KEquality _ h _ | KCustomC _ h _ _), _ => Some (VBool h)
  | _, _, _ => None
  end.
Lemma fixed_now c x v : fixed_value (a_name (c_at c)) (a_gain_fn (c_at c)) (class_of c) (extra_of c) x = Some v -> shows c x = Ok v.
Proof.
  unfold fixed_value, class_of, extra_of, shows.
  destruct x; try discriminate; cbn; try (intros H; injection H as <-; reflexivity);
  unfold get_obj, get_pbar, self_of; destruct (a_ext (c_at c)) as [? ? []|? []|? ? ? []]; cbn; intros H; try discriminate H; injection H as <-; reflexivity.
Qed.
Lemma fixed_name nm gf k e x v : fixed_value nm gf k e x = Some v -> x <> AModified /\ x <> AMask.
Proof. intros H. split; intros ->; discriminate H. Qed.
Lemma fixed_later c x v : constructed c -> fixed_value (a_name (c_at c)) (a_gain_fn (c_at c)) (class_of c) (extra_of c) x = Some v -> forever c x v.
Proof.
  intros Hc H us HF. destruct (fixed_name _ _ _ _ _ _ H) as [X1 X2]. rewrite shows_calls by auto.
  destruct (fixed_settings c (calls us) (calls_api us HF)) as (E1 & E2 & E3 & E4). apply fixed_now. now rewrite E1, E2, E3, E4.
Qed.
Lemma given_start name gain gf c : constructed c -> starts name gain gf c -> given name gain gf c.
Proof.
  intros Hc (H1 & H2 & H3). split; [|split].
  - apply fixed_later; [exact Hc|]. cbn. now rewrite H1.
  - intros us HF. exists (a_gain_fn (c_at c)). split; [|exact H3]. revert us HF. apply (fixed_later c AGainFn); [exact Hc|reflexivity].
  - unfold shows. cbn. unfold gain_of in H2. now rewrite H2.
Qed.
Lemma cost_start c w : cost_of c = Some w -> shows c ACost = Ok (VArray w).
Proof. unfold cost_of, shows. cbn. destruct (a_ext (c_at c)); intros H; try discriminate H. now injection H as ->. Qed.
Lemma task_start name cost gain gf lm c : constructed c -> starts name gain gf c -> cost_of c = Some cost -> extra_of c = Some lm ->
  given_task name cost gain gf lm c.
Proof.
  intros Hc Hs Hw He. split; [now apply given_start|]. split; [|now apply cost_start].
  apply fixed_later; [exact Hc|]. unfold cost_of, extra_of, class_of in *.
  destruct (a_ext (c_at c)) as [? ? []|? []|? ? ? []]; try discriminate Hw; cbn; now injection He as ->.
Qed.
Lemma barrier_start name gain gf s c : constructed c -> starts name gain gf c -> barrier_class (class_of c) = true -> extra_of c = Some s ->
  given_barrier name gain gf s c.
Proof.
  intros Hc Hs Hb He. split; [now apply given_start|]. apply fixed_later; [exact Hc|]. rewrite He.
  destruct (class_of c); try discriminate Hb; reflexivity.
Qed.
Lemma object_start c n ty : constructed c -> object_class (class_of c) = Some (n, ty) -> given_object c n ty.
Proof.
  intros Hc Hk. split; apply fixed_later; try exact Hc; destruct (class_of c); try discriminate Hk; injection Hk as -> ->; reflexivity.
Qed.

Lemma given_com name cost gain gf lm mk c : new_com_task name cost gain gf lm mk = Ok c -> given_task name cost gain gf lm c.
Proof. intros H. destruct (start_com _ _ _ _ _ _ _ H) as (S1 & K & W & E & _). apply task_start; auto. now apply made_com_task in H. Qed.
Lemma given_pos name cost gain on ty gf lm mk c : new_position_task name cost gain on ty gf lm mk = Ok c ->
  given_task name cost gain gf lm c /\ given_object c on ty.
Proof.
  intros H. destruct (start_pos _ _ _ _ _ _ _ _ _ H) as (S1 & K & W & E & _). apply made_position_task in H.
  split; [now apply task_start|]. apply object_start; [exact H|]. now rewrite K.
Qed.
Lemma given_frame name cost gain on ty gf lm mk c : new_frame_task name cost gain on ty gf lm mk = Ok c ->
  given_task name cost gain gf lm c /\ given_object c on ty.
Proof.
  intros H. destruct (start_frame _ _ _ _ _ _ _ _ _ H) as (S1 & K & W & E & _). apply made_frame_task in H.
  split; [now apply task_start|]. apply object_start; [exact H|]. now rewrite K.
Qed.
Lemma given_joint name cost gain gf lm mk c : new_joint_task name cost gain gf lm mk = Ok c -> given_task name cost gain gf lm c.
Proof. intros H. destruct (start_joint _ _ _ _ _ _ _ H) as (S1 & K & W & E & _). apply task_start; auto. now apply made_joint_task in H. Qed.
Lemma given_custom_task name cost gain gf lm mk d f c : new_custom_task name cost gain gf lm mk d f = Ok c -> given_task name cost gain gf lm c.
Proof. intros H. destruct (start_custom_task _ _ _ _ _ _ _ _ _ H) as (S1 & K & W & E & _). apply task_start; auto. now apply made_custom_task in H. Qed.
Lemma given_pbar name gain on ty lo hi lts gf sdg mk c : new_position_barrier name gain on ty lo hi lts gf sdg mk = Ok c ->
  given_barrier name gain gf sdg c /\ given_object c on ty /\
  exists lt, ((lts = "min" /\ lt = LMin) \/ (lts = "max" /\ lt = LMax) \/ (lts = "both" /\ lt = LBoth))%string /\ forever c ALimitType (VLimit lt).
Proof.
  intros H. destruct (start_pbar _ _ _ _ _ _ _ _ _ _ _ H) as (lt & F & S1 & K & E & _). pose proof H as H'. apply made_position_barrier in H.
  split; [apply barrier_start; auto; now rewrite K|]. split; [apply object_start; [exact H|]; now rewrite K|].
  exists lt. split; [|apply fixed_later; [exact H|]; now rewrite K].
  unfold new_position_barrier in H'. destruct (init_barrier _ _ _ _ _ _); cbn in H'; [|discriminate].
  destruct (String.eqb_spec lts "min"); [subst; vm_compute in F; injection F as <-; left; split; reflexivity|].
  destruct (String.eqb_spec lts "max"); [subst; vm_compute in F; injection F as <-; right; left; split; reflexivity|].
  destruct (String.eqb_spec lts "both"); [subst; vm_compute in F; injection F as <-; right; right; split; reflexivity|]. discriminate H'.
Qed.
Lemma given_jbar name gain gf sdg lo hi mk c : new_joint_barrier name gain gf sdg lo hi mk = Ok c -> given_barrier name gain gf sdg c.
Proof. intros H. destruct (start_jbar _ _ _ _ _ _ _ _ H) as (S1 & K & E & _). apply made_joint_barrier in H. apply barrier_start; auto. now rewrite K. Qed.
Lemma given_self name gain gf sdg dm bs er n c : new_self_collision name gain gf sdg dm bs er n = Ok c ->
  given_barrier name gain gf sdg c /\ forever c ADMin (VReal dm) /\ shows c ACollisionBodies = Ok (VBodies bs) /\ shows c ANClosestPairs = Ok (VInt n).
Proof.
  intros H. destruct (start_self _ _ _ _ _ _ _ _ _ H) as (S1 & K & E). pose proof H as H'. apply made_self_collision in H.
  split; [apply barrier_start; auto; now rewrite K|]. split; [apply fixed_later; [exact H|]; now rewrite K|].
  unfold new_self_collision, init_barrier in H'. destruct (init_component _ _ _ _ _) as [a|] eqn:I; cbn in H'; [|discriminate]. injection H' as <-.
  apply init_comp_cases in I. destruct I as (_ & I & _). unfold shows. cbn. unfold self_of. rewrite I. split; reflexivity.
Qed.
Lemma given_custom_barrier name gain gf sdg mk d f c : new_custom_barrier name gain gf sdg mk d f = Ok c -> given_barrier name gain gf sdg c.
Proof. intros H. destruct (start_custom_barrier _ _ _ _ _ _ _ _ H) as (S1 & K & E & _). apply made_custom_barrier in H. apply barrier_start; auto. now rewrite K. Qed.
Lemma given_equality name gain hard soft c : new_model_equality name gain hard soft = Ok c ->
  given name gain None c /\ forever c AActive (VBool true) /\ forever c AHard (VBool hard).
Proof.
  intros H. destruct (start_equality _ _ _ _ _ H) as (S1 & K). apply made_model_equality in H.
  split; [now apply given_start|]. split; apply fixed_later; try exact H; now rewrite K.
Qed.
Lemma given_custom_constraint name gain mk hard soft d f c : new_custom_constraint name gain mk hard soft d f = Ok c ->
  given name gain None c /\ forever c AActive (VBool true) /\ forever c AHard (VBool hard).
Proof.
  intros H. destruct (start_custom_constraint _ _ _ _ _ _ _ _ H) as (S1 & K & _). apply made_custom_constraint in H.
  split; [now apply given_start|]. split; apply fixed_later; try exact H; now rewrite K.
Qed.
