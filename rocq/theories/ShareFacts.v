(** Compilation as a pure function of the components, and sharing of components
    between problems over one model. *)
From Verif Require Import Base Lin LinFacts Mjx Typing Component Problem SpecComponent ComponentFacts ComponentFacts2
  ApiSteps SpecJoint JointFacts BindFacts BindFacts2 SpecHistory BindFacts3 SpecProblem CoreFacts ProblemFacts.
Open Scope nat_scope.

#[local] Arguments update_model : simpl never.
#[local] Arguments jax_component : simpl never.
#[local] Arguments run_cop : simpl never.
#[local] Arguments generate_collision_pairs : simpl never.
#[local] Arguments exclude_set : simpl never.
#[local] Arguments zrange : simpl never.
#[local] Arguments Nat.ltb : simpl never.
#[local] Arguments Nat.eqb : simpl never.

(** ** Compilation as a function *)
Fixpoint compile_pure (l : list (string * nat)) (cs : list comp) : res (list (string * jaxc)) :=
  match l with
  | [] => Ok []
  | (n, i) :: r => match nth_error cs i with
                   | None => Err TypeError
                   | Some c => do j <- fst (jax_component c); do js <- compile_pure r cs; Ok ((n, j) :: js)
                   end
  end.
Lemma compile_pure_alike l cs cs' : List.length cs = List.length cs' ->
  (forall n i c c', In (n, i) l -> nth_error cs i = Some c -> nth_error cs' i = Some c' -> fst (jax_component c') = fst (jax_component c)) ->
  compile_pure l cs' = compile_pure l cs.
Proof.
  intros Hl. induction l as [|(n, i) l IH]; intros H; cbn; [reflexivity|].
  destruct (nth_error cs i) as [c|] eqn:E, (nth_error cs' i) as [c'|] eqn:E'.
  - rewrite (H n i c c') by (auto; now left). rewrite IH; [reflexivity|]. intros n' i' c1 c2 Hi. apply (H n' i'). now right.
  - apply nth_error_None in E'. assert (i < List.length cs) by (apply nth_error_Some; congruence). lia.
  - apply nth_error_None in E. assert (i < List.length cs') by (apply nth_error_Some; congruence). lia.
  - reflexivity.
Qed.
Lemma compile_all_pure l : forall cs, Forall reachable cs -> fst (compile_all l cs) = compile_pure l cs.
Proof.
  induction l as [|(n, i) l IH]; intros cs Hr; cbn [compile_all compile_pure]; [reflexivity|].
  destruct (nth_error cs i) as [c|] eqn:E; [|reflexivity].
  assert (Hc : reachable c) by (rewrite Forall_forall in Hr; apply Hr; eapply nth_error_In; eauto).
  pose proof (alike_jax c Hc) as Ha. destruct (jax_component c) as [[j|e] c'] eqn:Ej; cbn [snd fst] in *; [|reflexivity]. cbn.
  assert (Hr' : Forall reachable (replace_nth i c' cs)) by (apply Forall_replace; [apply Ha|exact Hr]).
  specialize (IH _ Hr').
  assert (Hp : compile_pure l (replace_nth i c' cs) = compile_pure l cs).
  { apply compile_pure_alike; [now rewrite replace_length|]. intros n' i' c1 c2 _ H1 H2.
    destruct (Nat.eq_dec i i') as [<-|Hne].
    - rewrite (nth_replace_same _ _ _ _ E) in H2. assert (c1 = c) by congruence. assert (c2 = c') by congruence. subst. apply Ha.
    - rewrite nth_replace_other in H2 by exact Hne. congruence. }
  rewrite Hp in IH. destruct (compile_all l (replace_nth i c' cs)) as [[js|e] cs']; cbn in *; now rewrite <- IH.
Qed.
Lemma compile_eq pi w p : Forall reachable (w_comps w) -> nth_error (w_probs w) pi = Some p ->
  fst (step (WCompile pi) w) = do js <- compile_pure (p_comps p) (w_comps w); Ok (OData (mkJD (p_model p) (p_vmin p) (p_vmax p) js)).
Proof.
  intros Hr Hp. cbn. unfold compile. rewrite Hp. rewrite <- (compile_all_pure _ _ Hr).
  destruct (compile_all _ _) as [[js|e] cs]; reflexivity.
Qed.

(** Two worlds whose problem [pi] is the same and whose components (of this
    problem) compile alike give the same compiled data. *)
Lemma compile_agree pi w w' p : Forall reachable (w_comps w) -> Forall reachable (w_comps w') ->
  nth_error (w_probs w) pi = Some p -> nth_error (w_probs w') pi = Some p ->
  List.length (w_comps w) = List.length (w_comps w') ->
  (forall n i c c', In (n, i) (p_comps p) -> nth_error (w_comps w) i = Some c -> nth_error (w_comps w') i = Some c' ->
     fst (jax_component c') = fst (jax_component c)) ->
  fst (step (WCompile pi) w') = fst (step (WCompile pi) w).
Proof.
  intros Hr Hr' Hp Hp' Hl Ha. rewrite (compile_eq pi w p Hr Hp), (compile_eq pi w' p Hr' Hp').
  now rewrite (compile_pure_alike _ _ _ Hl Ha).
Qed.

Lemma compile_spec os pi p : Forall legal os -> problem_of (state os) pi p ->
  let w := state os in
  (forall d, fst (step (WCompile pi) w) = Ok (OData d) <->
     jd_model d = p_model p /\ jd_vmin d = p_vmin p /\ jd_vmax d = p_vmax p /\
     Forall2 (fun e r => fst r = fst e /\ exists c, nth_error (w_comps w) (snd e) = Some c /\ fst (jax_component c) = Ok (snd r))
             (p_comps p) (jd_comps d)) /\
  ((exists d, fst (step (WCompile pi) w) = Ok (OData d)) <->
     forall n i, In (n, i) (p_comps p) -> exists c j, nth_error (w_comps w) i = Some c /\ fst (jax_component c) = Ok j) /\
  same_visible w (snd (step (WCompile pi) w)) /\
  fst (step (WCompile pi) (snd (step (WCompile pi) w))) = fst (step (WCompile pi) w).
Proof.
  intros Hl Hp w. pose proof (reach_always os Hl) as Hr. fold w in Hr. unfold problem_of in Hp. fold w in Hp.
  assert (Hids : forall n i, In (n, i) (p_comps p) -> i < List.length (w_comps w)).
  { intros n i Hi. eapply ids_always; eauto. }
  destruct (compile_all_spec (p_comps p) (w_comps w) Hr Hids) as [Ha Hs].
  assert (Hc : step (WCompile pi) w = match compile_all (p_comps p) (w_comps w) with
      | (Ok js, cs) => (Ok (OData (mkJD (p_model p) (p_vmin p) (p_vmax p) js)), mkW cs (w_probs w))
      | (Err e, cs) => (Err e, mkW cs (w_probs w)) end) by (cbn; unfold compile; now rewrite Hp).
  assert (Hu : forall l js js', Forall2 (entry_ok (w_comps w)) l js -> Forall2 (entry_ok (w_comps w)) l js' -> js = js').
  { induction l as [|e l IH]; intros js js' H1 H2; inversion H1; inversion H2; subst; [reflexivity|].
    f_equal; [|eapply IH; eauto]. destruct H3 as [E1 (c & Ec & Ej)], H8 as [E2 (c' & Ec' & Ej')].
    destruct y, y0; cbn in *. assert (c = c') by congruence. subst. congruence. }
  split; [|split; [|split]].
  - intros d. rewrite Hc. destruct (compile_all (p_comps p) (w_comps w)) as [[js|e] cs]; cbn [fst snd] in *.
    + split.
      * intros H; injection H as <-. cbn. auto.
      * intros (H1 & H2 & H3 & H4). destruct d as [dm dl dh dc]. cbn in *. subst. now rewrite (Hu _ _ _ Hs H4).
    + split; [discriminate|]. intros (_ & _ & _ & H4). destruct Hs as (n & i & c & Hin & Hn & He). exfalso.
      clear -H4 Hin Hn He. induction H4 as [|x r l js [_ (c' & Hc' & Hj)] _ IH]; [destruct Hin|].
      destruct Hin as [->|Hin]; [cbn in Hc'; congruence|auto].
  - rewrite Hc. destruct (compile_all (p_comps p) (w_comps w)) as [[js|e] cs]; cbn [fst snd] in *.
    + split; [|eauto]. intros _ n i Hin. clear -Hs Hin. induction Hs as [|x r l js [_ (c' & Hc' & Hj)] _ IH]; [destruct Hin|].
      destruct Hin as [->|Hin]; [cbn in Hc'; eauto|auto].
    + split; [intros [d Hd]; discriminate|]. intros H. destruct Hs as (n & i & c & Hin & Hn & He).
      destruct (H n i Hin) as (c' & j & Hc' & Hj). congruence.
  - rewrite Hc. unfold same_visible. destruct (compile_all (p_comps p) (w_comps w)) as [[js|e] cs]; cbn [fst snd w_probs w_comps] in *;
     (split; [reflexivity|]); eapply Forall2_impl; try exact Ha; intros a b (H & _); exact H.
  - assert (E1 : w_probs (snd (step (WCompile pi) w)) = w_probs w) by apply compile_probs.
    assert (E2 : Forall2 alike (w_comps w) (w_comps (snd (step (WCompile pi) w)))).
    { rewrite Hc. destruct (compile_all (p_comps p) (w_comps w)) as [[js|e] cs]; exact Ha. }
    apply compile_agree with (p := p); [exact Hr| | exact Hp | rewrite E1; exact Hp | eapply Forall2_length; eauto|].
    + apply step_reach; [exact I|exact Hr].
    + intros n i c c' _ H1 H2. destruct (Forall2_nth _ _ _ _ _ E2 H1) as (c2 & H3 & _ & H4 & _). congruence.
Qed.

(** ** Components settled on a model: binding it again changes no attribute *)
Definition settled (m : mjmodel) (a : attrs) : Prop :=
  match a_ext a with
  | XTask _ _ (TPos o _) | XTask _ _ (TFrame o _) => a_model a = Some m /\ ob_id o = name2id m (ob_type o) (ob_name o) /\ ob_id o <> (-1)%Z
  | XBarrier _ (BPos p) => a_model a = Some m /\ ob_id (pb_obj p) = name2id m (ob_type (pb_obj p)) (ob_name (pb_obj p)) /\ ob_id (pb_obj p) <> (-1)%Z
  | XTask _ _ (TJoint j) => jt_bound m (jt_final j) a
  | XBarrier s (BJoint j) => jb_bound m (jb_final j) s a
  | XBarrier _ (BSelf s) => a_model a = Some m /\ exists ex ps, listed m (sc_bodies s) = sc_bodies s /\
      exclude_set m (sc_excl_raw s) [] = Ok ex /\ sc_excl s = Some ex /\
      generate_collision_pairs m (sc_bodies s) ex = Ok ps /\ sc_pairs s = Some ps /\ sc_n s <> (-1)%Z /\ a_dim a = sc_n s
  | XConstraint _ _ _ CModelEq => a_model a = Some m /\ Nat.ltb (List.length (m_eq_type m)) (m_neq m) = false /\
      exists n, count_eq (firstn (m_neq m) (m_eq_type m)) 0 = Ok n /\ a_mask_idxs a = zrange 0 (Z.of_nat n) /\ a_dim a = Z.of_nat n
  | _ => a_model a = Some m
  end.

Lemma settled_step m a a' : settled m a -> astep a a' -> settled m a'.
Proof.
  intros H Hs. unfold settled in *.
  destruct (a_ext a) as [cost lm [t|o t|o t|j|f]|s [p|j|k|f]|act hard soft [|f]] eqn:E.
  - destruct Hs; cbn; try (rewrite E in *; discriminate); try rewrite E; try exact H;
    try (rewrite E in H0; injection H0 as <- <- <-; exact H).
    destruct (forced_other _ _ H0) as (_ & Hm & _ & _ & _ & He). rewrite He, E, Hm. exact H.
  - destruct Hs; cbn; try (rewrite E in *; discriminate); try rewrite E; try exact H;
    try (rewrite E in H0; injection H0; intros; subst; exact H).
    destruct (forced_other _ _ H0) as (_ & Hm & _ & _ & _ & He). rewrite He, E, Hm. exact H.
  - destruct Hs; cbn; try (rewrite E in *; discriminate); try rewrite E; try exact H;
    try (rewrite E in H0; injection H0; intros; subst; exact H).
    destruct (forced_other _ _ H0) as (_ & Hm & _ & _ & _ & He). rewrite He, E, Hm. exact H.
  - pose proof (jt_bound_step _ _ _ _ H Hs) as H'. pose proof H' as (_ & _ & _ & _ & _ & _ & cost' & lm' & t' & He & _).
    rewrite He. cbn. exact H'.
  - destruct Hs; cbn; try (rewrite E in *; discriminate); try rewrite E; try exact H;
    try (rewrite E in H0; injection H0; intros; subst; exact H).
    destruct (forced_other _ _ H0) as (_ & Hm & _ & _ & _ & He). rewrite He, E, Hm. exact H.
  - destruct Hs; cbn; try (rewrite E in *; discriminate); try rewrite E; try exact H;
    try (rewrite E in H0; injection H0; intros; subst; exact H).
    destruct (forced_other _ _ H0) as (_ & Hm & _ & _ & _ & He). rewrite He, E, Hm. exact H.
  - pose proof (jb_bound_step _ _ _ _ _ H Hs) as H'. pose proof H' as (_ & _ & _ & _ & _ & _ & lo' & hi' & He).
    rewrite He. cbn. exact H'.
  - destruct Hs; cbn; try (rewrite E in *; discriminate); try rewrite E; try exact H.
    destruct (forced_other _ _ H0) as (_ & Hm & _ & _ & Hd & He). rewrite He, E, Hm, Hd. exact H.
  - destruct Hs; cbn; try (rewrite E in *; discriminate); try rewrite E; try exact H.
    destruct (forced_other _ _ H0) as (_ & Hm & _ & _ & _ & He). rewrite He, E, Hm. exact H.
  - destruct Hs; cbn; try (rewrite E in *; discriminate); try rewrite E; try exact H.
    destruct (forced_other _ _ H0) as (_ & Hm & _ & _ & Hd & He). rewrite He, E, Hm, Hd.
    destruct H as (H1 & H2 & n & H3 & H4 & H5). split; [exact H1|]. split; [exact H2|]. exists n. split; [exact H3|]. split; [|exact H5].
    unfold forced in H0. destruct (a_mask a); [injection H0 as <-; exact H4|].
    destruct (a_dim a =? -1)%Z; [discriminate|]. unfold get_default_mask in H0.
    destruct (dim a) as [d|] eqn:Edim; cbn in H0; [|discriminate]. destruct (zsize d); cbn in H0; [|discriminate].
    injection H0 as <-. cbn. unfold dim in Edim. destruct (a_dim a =? -1)%Z; [discriminate|]. injection Edim as <-. now rewrite H5.
  - destruct Hs; cbn; try (rewrite E in *; discriminate); try rewrite E; try exact H.
    destruct (forced_other _ _ H0) as (_ & Hm & _ & _ & _ & He). rewrite He, E, Hm. exact H.
Qed.
Lemma settled_steps m a a' : settled m a -> asteps a a' -> settled m a'.
Proof. intros H Hs. eapply asteps_inv; [|exact Hs|exact H]. intros x y. apply settled_step. Qed.

Lemma jt_bind_bound m c cost lm j : wf_joints m -> a_ext (c_at c) = XTask cost lm (TJoint j) -> fst (update_model m c) = Ok tt ->
  jt_bound m (jt_final j) (c_at (snd (update_model m c))).
Proof.
  intros Hw He Hu. destruct (joint_task_bind m c _ _ _ Hw He) as [Hb Hg].
  destruct (mask_fits_dec m (jt_final j)) as [Hf|Hf]; [|destruct (Hb Hf) as [Hb' _]; congruence].
  destruct (Hg Hf) as (H0 & H1 & H2 & H3 & H4 & _ & H5). unfold jt_bound.
  split; [exact Hw|]. split; [exact Hf|]. split; [exact H2|]. split; [exact H1|]. split; [exact H4|]. split; [exact H3|].
  destruct (jt_target j) as [t|].
  - do 3 eexists. split; [exact H5|]. rewrite H0 in Hu. destruct (last_dim t) as [k|]; cbn in Hu; [|discriminate].
    destruct (Nat.eqb k (List.length (selected m (jt_final j)))) eqn:E; [|discriminate]. apply Nat.eqb_eq in E. now subst.
  - do 3 eexists. split; [exact H5|]. rewrite last_dim_tvec, vzero_length. reflexivity.
Qed.
Lemma jb_bind_bound m c s j : wf_joints m -> a_ext (c_at c) = XBarrier s (BJoint j) -> fst (update_model m c) = Ok tt ->
  jb_bound m (jb_final j) s (c_at (snd (update_model m c))).
Proof.
  intros Hw He Hu. destruct (joint_barrier_bind m c _ _ Hw He) as [Hb Hg].
  destruct (mask_fits_dec m (jb_final j)) as [Hf|Hf]; [|destruct (Hb Hf) as [Hb' _]; congruence].
  destruct (Hg Hf) as (H1 & H2 & H3 & H4 & _ & _ & _ & H5). unfold jb_bound. specialize (H5 Hu).
  split; [exact Hw|]. split; [exact Hf|]. split; [exact H2|]. split; [exact H1|]. split; [exact H4|]. split; [exact H3|].
  destruct (jb_qmin j), (jb_qmax j); eauto.
Qed.

(** A successful binding settles the component. *)
Lemma bind_settles m c : wf_joints m -> fst (update_model m c) = Ok tt -> settled m (c_at (snd (update_model m c))).
Proof.
  intros Hw Hu. destruct (a_ext (c_at c)) as [cost lm [t|o t|o t|j|f]|s [p|j|k|f]|act hard soft [|f]] eqn:E.
  - unfold update_model, mbind, read. rewrite E. unfold settled. cbn. now rewrite E.
  - assert (Ho : object_of (c_at c) = Some o) by (unfold object_of; now rewrite E).
    rewrite (obj_bind _ _ _ Ho) in *. destruct (_ =? -1)%Z eqn:Ei; [discriminate|]. apply Z.eqb_neq in Ei.
    unfold settled, set_obj_id. rewrite E. cbn. auto.
  - assert (Ho : object_of (c_at c) = Some o) by (unfold object_of; now rewrite E).
    rewrite (obj_bind _ _ _ Ho) in *. destruct (_ =? -1)%Z eqn:Ei; [discriminate|]. apply Z.eqb_neq in Ei.
    unfold settled, set_obj_id. rewrite E. cbn. auto.
  - pose proof (jt_bind_bound m c _ _ _ Hw E Hu) as H. pose proof H as (_ & _ & _ & _ & _ & _ & cost' & lm' & t' & He & _).
    unfold settled. rewrite He. exact H.
  - unfold update_model, mbind, read. rewrite E. unfold settled. cbn. now rewrite E.
  - assert (Ho : object_of (c_at c) = Some (pb_obj p)) by (unfold object_of; now rewrite E).
    rewrite (obj_bind _ _ _ Ho) in *. destruct (_ =? -1)%Z eqn:Ei; [discriminate|]. apply Z.eqb_neq in Ei.
    unfold settled, set_obj_id. rewrite E. cbn. auto.
  - pose proof (jb_bind_bound m c _ _ Hw E Hu) as H. pose proof H as (_ & _ & _ & _ & _ & _ & lo & hi & He).
    unfold settled. rewrite He. exact H.
  - pose proof (self_bind m c _ _ E) as H. destruct (exclude_set m (sc_excl_raw k) []) as [ex|e] eqn:Ex; [|congruence].
    destruct (generate_collision_pairs m (listed m (sc_bodies k)) ex) as [ps|e] eqn:Eg; [|congruence].
    rewrite H. unfold settled, set_self. cbn. split; [reflexivity|]. exists ex, ps.
    split; [unfold listed; destruct (sc_bodies k); [destruct (map CBInt (zrange 0 (Z.of_nat (m_nbody m)))) eqn:El; auto|reflexivity]|].
    split; [exact Ex|]. split; [reflexivity|]. split; [exact Eg|]. split; [reflexivity|]. split; [|reflexivity].
    destruct (sc_n k =? -1)%Z eqn:En; [lia|now apply Z.eqb_neq in En].
  - unfold update_model, mbind, read. rewrite E. unfold settled. cbn. now rewrite E.
  - assert (HU : update_model m c = update_model_equality m c) by (unfold update_model, mbind, read; now rewrite E).
    revert Hu. rewrite HU. unfold update_model_equality, mseq, mbind, seta, lift. cbn.
    destruct (Nat.ltb (List.length (m_eq_type m)) (m_neq m)) eqn:El; [intros K; cbn in K; discriminate|].
    destruct (count_eq (firstn (m_neq m) (m_eq_type m)) 0) as [n|] eqn:Ec; [|intros K; cbn in K; discriminate].
    intros _. unfold settled. cbn. rewrite E. eauto 8.
  - unfold update_model, mbind, read. rewrite E. unfold settled. cbn. now rewrite E.
Qed.

Lemma attrs_eta a : mkA (a_name a) (a_model a) (a_gain a) (a_gain_fn a) (a_dim a) (a_mask a) (a_mask_idxs a) (a_ext a) = a.
Proof. now destruct a. Qed.

Lemma attrs_same a b : core a = core b -> a_model a = a_model b -> a_dim a = a_dim b -> a_mask a = a_mask b ->
  a_mask_idxs a = a_mask_idxs b -> a_ext a = a_ext b -> a = b.
Proof. destruct a, b. unfold core. cbn. intros H. injection H. intros. subst. reflexivity. Qed.

(** Binding the same model again. *)
Lemma rebind_same m c : settled m (c_at c) -> fst (update_model m c) = Ok tt /\ c_at (snd (update_model m c)) = c_at c.
Proof.
  intros H. pose proof (keeps_update_model m c) as Gk.
  unfold settled in H. destruct (a_ext (c_at c)) as [cost lm [t|o t|o t|j|f]|s [p|j|k|f]|act hard soft [|f]] eqn:E.
  - clear Gk. unfold update_model, mbind, read. rewrite E. cbn. split; [reflexivity|]. unfold set_a_model. rewrite <- H. apply attrs_eta.
  - assert (Ho : object_of (c_at c) = Some o) by (unfold object_of; now rewrite E). destruct H as (Hm & Hi & Hn).
    rewrite (obj_bind _ _ _ Ho), <- Hi. apply Z.eqb_neq in Hn. rewrite Hn. cbn. split; [reflexivity|].
    unfold set_obj_id. rewrite E. clear Gk Ho. destruct (c_at c); cbn in *. subst. destruct o; cbn. reflexivity.
  - assert (Ho : object_of (c_at c) = Some o) by (unfold object_of; now rewrite E). destruct H as (Hm & Hi & Hn).
    rewrite (obj_bind _ _ _ Ho), <- Hi. apply Z.eqb_neq in Hn. rewrite Hn. cbn. split; [reflexivity|].
    unfold set_obj_id. rewrite E. clear Gk Ho. destruct (c_at c); cbn in *. subst. destruct o; cbn. reflexivity.
  - destruct H as (Hw & Hf & H1 & H2 & H3 & H4 & cost' & lm' & t' & He & Ht). rewrite E in He. injection He as <- <- Hj.
    destruct (joint_task_bind m c _ _ _ Hw E) as [_ Hg]. destruct (Hg Hf) as (G0 & G1 & G2 & G3 & G4 & G5 & G6).
    destruct j as [jf jt jq]. injection Hj as Hj1 Hj2. cbn [jt_target jt_final] in *. subst jt jq.
    rewrite Ht in G0. cbn in G0. rewrite Nat.eqb_refl in G0. split; [exact G0|].
    apply attrs_same; congruence.
  - clear Gk. unfold update_model, mbind, read. rewrite E. cbn. split; [reflexivity|]. unfold set_a_model. rewrite <- H. apply attrs_eta.
  - assert (Ho : object_of (c_at c) = Some (pb_obj p)) by (unfold object_of; now rewrite E). destruct H as (Hm & Hi & Hn).
    rewrite (obj_bind _ _ _ Ho), <- Hi. apply Z.eqb_neq in Hn. rewrite Hn. cbn. split; [reflexivity|].
    unfold set_obj_id. rewrite E. clear Gk Ho. destruct (c_at c); cbn in *. subst. destruct p as [[] ? ? ? ?]; cbn. reflexivity.
  - destruct H as (Hw & Hf & H1 & H2 & H3 & H4 & lo & hi & He). rewrite E in He. injection He as Hj.
    destruct (joint_barrier_bind m c _ _ Hw E) as [_ Hg]. destruct (Hg Hf) as (G0 & G1 & G2 & G3 & G4 & G5 & G6 & G7).
    destruct j as [jf jl jh jq]. injection Hj as Hj1 Hj2 Hj3. cbn [jb_qmin jb_qmax jb_final] in *. subst jl jh jq.
    assert (Hok : fst (update_model m c) = Ok tt) by (apply G5; auto). split; [exact Hok|]. specialize (G7 Hok).
    apply attrs_same; congruence.
  - destruct H as (Hm & ex & ps & Hl & Hx & Hxe & Hg & Hp & Hn & Hd). pose proof (self_bind m c _ _ E) as H.
    rewrite Hx, Hl, Hg in H. cbv zeta in H. apply Z.eqb_neq in Hn. rewrite Hn in H. rewrite H. cbn. split; [reflexivity|].
    unfold set_self. clear Gk H. destruct (c_at c); cbn in *. subst. destruct k; cbn in *. subst. reflexivity.
  - clear Gk. unfold update_model, mbind, read. rewrite E. cbn. split; [reflexivity|]. unfold set_a_model. rewrite <- H. apply attrs_eta.
  - clear Gk. destruct H as (Hm & Hl & n & Hc & Hi & Hd). unfold update_model, mbind, read. rewrite E.
    unfold update_model_equality, mseq, mbind, seta, lift. cbn. rewrite Hl, Hc. cbn. split; [reflexivity|].
    destruct (c_at c); cbn in *. subst. reflexivity.
  - clear Gk. unfold update_model, mbind, read. rewrite E. cbn. split; [reflexivity|]. unfold set_a_model. rewrite <- H. apply attrs_eta.
Qed.

(** ** Worlds over a single model *)
Definition all_settled (m : mjmodel) (w : world) : Prop :=
  (forall pi p, nth_error (w_probs w) pi = Some p -> p_model p = m) /\
  (forall pi p n i c, nth_error (w_probs w) pi = Some p -> In (n, i) (p_comps p) -> nth_error (w_comps w) i = Some c -> settled m (c_at c)).

Lemma jax_steps c : asteps (c_at c) (c_at (snd (jax_component c))).
Proof.
  assert (H : asteps (c_at c) (c_at (after OpReadJax c))) by (apply api_steps; [exact I|discriminate]).
  assert (E : after OpReadJax c = snd (jax_component c)).
  { unfold after, run_cop, ignore, mbind. now destruct (jax_component c) as [[]]. }
  now rewrite <- E.
Qed.

Lemma compile_all_nth l : forall cs i c, nth_error cs i = Some c -> exists c', nth_error (snd (compile_all l cs)) i = Some c' /\ asteps (c_at c) (c_at c').
Proof.
  induction l as [|(n, k) l IH]; intros cs i c Hc; cbn [compile_all].
  - exists c. split; [exact Hc|apply asteps_refl].
  - destruct (nth_error cs k) as [ck|] eqn:Ek; [|exists c; split; [exact Hc|apply asteps_refl]].
    pose proof (jax_steps ck) as Hj. destruct (jax_component ck) as [r c'] eqn:Ej. cbn [snd] in Hj.
    assert (G : exists c1, nth_error (replace_nth k c' cs) i = Some c1 /\ asteps (c_at c) (c_at c1)).
    { destruct (Nat.eq_dec k i) as [<-|Hne].
      - rewrite (nth_replace_same _ _ _ _ Ek). exists c'. split; [reflexivity|]. assert (ck = c) by congruence. now subst.
      - rewrite nth_replace_other by exact Hne. exists c. split; [exact Hc|apply asteps_refl]. }
    destruct G as (c1 & G1 & G2). destruct r as [j|e]; [|exists c1; auto].
    destruct (IH _ _ _ G1) as (c2 & H1 & H2). exists c2.
    destruct (compile_all l (replace_nth k c' cs)) as [[js|e] cs']; cbn in *; (split; [exact H1|]); eapply asteps_trans; eauto.
Qed.

Lemma settled_world_step m o w : wf_joints m -> single m o -> ids_ok w -> all_settled m w -> all_settled m (snd (step o w)).
Proof.
  intros Hw Hs Hids [H1 H2].
  assert (Hmod : forall pi p', nth_error (w_probs (snd (step o w))) pi = Some p' -> p_model p' = m).
  { intros pi p' Hp'. destruct (nth_error (w_probs w) pi) as [p|] eqn:Ep.
    - destruct (step_problem o w pi p Ep) as (p2 & E2 & Hm & _). assert (p2 = p') by congruence. subst. rewrite Hm. eauto.
    - destruct (step_new_problem _ _ _ _ Ep Hp') as (_ & m' & lo & hi & -> & Hn). cbn in Hs. subst m'.
      unfold new_problem in Hn. destruct (limit_vector m lo); cbn in Hn; [|discriminate]. destruct (limit_vector m hi); cbn in Hn; [|discriminate].
      now injection Hn as <-. }
  split; [exact Hmod|].
  (* every component settled before is settled after *)
  assert (K : forall i c c', nth_error (w_comps w) i = Some c -> nth_error (w_comps (snd (step o w))) i = Some c' ->
              settled m (c_at c) -> settled m (c_at c')).
  { intros i c c' Hc Hc' Hset.
    assert (R : forall k x, (k = i -> settled m (c_at x)) -> nth_error (replace_nth k x (w_comps w)) i = Some c' -> settled m (c_at c')).
    { intros k x Hx Hr. destruct (Nat.eq_dec k i) as [->|Hne].
      - rewrite (nth_replace_same _ _ _ _ Hc) in Hr. injection Hr as <-. now apply Hx.
      - rewrite nth_replace_other in Hr by exact Hne. congruence. }
    assert (S0 : nth_error (w_comps w) i = Some c' -> settled m (c_at c')) by (intros; congruence).
    destruct o; cbn [step] in Hc'; unfold component, task, barrier in Hc'; rewrite ?lookup_world in Hc'.
    - cbn in Hc'. rewrite nth_error_app1 in Hc' by (apply nth_error_Some; congruence). auto.
    - destruct (new_problem m0 vmin vmax); auto.
    - destruct (nth_error (w_comps w) ci) as [c0|] eqn:E0; [|auto].
      destruct (run_cop o c0) as [r c1] eqn:Er. cbn in Hc'. apply (R ci c1); [|exact Hc']. intros ->.
      assert (c0 = c) by congruence. subst c0. replace c1 with (after o c) by (unfold after; now rewrite Er).
      destruct o; cbn in Hs; try contradiction; try (eapply settled_steps; [exact Hset|apply api_steps; [exact I|discriminate]]).
      subst m0. unfold after. change (run_cop (OpModel m) c) with (update_model m c). destruct (rebind_same m c Hset) as [_ ->]. exact Hset.
    - unfold add_component in Hc'. destruct (nth_error (w_probs w) pi) as [p|] eqn:Ep; [|auto].
      destruct (nth_error (w_comps w) ci) as [c0|] eqn:E0; [|auto]. destruct (has_name _ _); [auto|].
      pose proof (H1 _ _ Ep) as Hpm. rewrite Hpm in Hc'.
      assert (Hb : ci = i -> settled m (c_at (snd (update_model m c0)))).
      { intros ->. assert (c0 = c) by congruence. subst c0. destruct (rebind_same m c Hset) as [_ ->]. exact Hset. }
      destruct (update_model m c0) as [[u|e] c1]; cbn in Hc', Hb; eapply R; eauto.
    - unfold remove_component in Hc'. destruct (nth_error _ pi); [|auto]. destruct (has_name _ _); auto.
    - destruct (nth_error _ pi); [|auto]. destruct (update_v_min _ _); auto.
    - destruct (nth_error _ pi); [|auto]. destruct (update_v_max _ _); auto.
    - unfold compile in Hc'. destruct (nth_error _ pi) as [p|]; [|auto].
      destruct (compile_all_nth (p_comps p) _ _ _ Hc) as (c2 & G1 & G2).
      destruct (compile_all (p_comps p) (w_comps w)) as [[js|e] cs]; cbn in *; assert (c2 = c') by congruence; subst; eapply settled_steps; eauto.
    - auto.
    - auto.
    - auto. }
  intros pi p' n i c' Hp' Hin Hc'.
  destruct (nth_error (w_probs w) pi) as [p|] eqn:Ep.
  - destruct (step_problem o w pi p Ep) as (p2 & E2 & Hm & Hl & _). assert (p2 = p') by congruence. subst p2. rewrite Hl in Hin.
    assert (Old : In (n, i) (p_comps p) -> settled m (c_at c')).
    { intros Hi. pose proof (Hids _ _ _ _ Ep Hi) as Hlt.
      destruct (nth_error (w_comps w) i) as [c|] eqn:Ec; [|apply nth_error_None in Ec; lia]. eapply K; eauto. }
    destruct o; cbn [add_effect] in Hin; auto.
    + destruct (Nat.eqb pi0 pi) eqn:E; [|auto]. apply Nat.eqb_eq in E. subst pi0.
      destruct (fst (step (WAdd pi ci) w)) as [r|] eqn:Es; [|auto]. destruct (nth_error (w_comps w) ci) as [c0|] eqn:E0; [|auto].
      apply in_app_iff in Hin. destruct Hin as [Hin|[Hin|[]]]; [auto|]. injection Hin as Hn <-.
      cbn [step] in Hc', Es. unfold add_component in Hc', Es. rewrite Ep, E0 in Hc', Es. destruct (has_name _ _); [discriminate|].
      rewrite (H1 _ _ Ep) in Hc', Es. pose proof (bind_settles m c0 Hw) as Hb.
      destruct (update_model m c0) as [[[]|e] c1]; cbn in *; [|discriminate].
      rewrite (nth_replace_same _ _ _ _ E0) in Hc'. injection Hc' as <-. auto.
    + destruct (Nat.eqb pi0 pi); [|auto]. apply remove_name_in in Hin. apply Old. tauto.
  - destruct (step_new_problem _ _ _ _ Ep Hp') as (H0 & _). rewrite H0 in Hin. destruct Hin.
Qed.
Lemma settled_always m os : wf_joints m -> Forall (single m) os -> all_settled m (state os).
Proof.
  intros Hw. unfold state.
  assert (G : forall w, ids_ok w -> all_settled m w -> Forall (single m) os -> all_settled m (run os w)).
  { induction os as [|o os IH]; intros w Hi Ha Ho; [exact Ha|]. inversion Ho; subst. cbn. apply IH; auto; [now apply ids_step|].
    now apply settled_world_step. }
  apply G; [apply (ids_always [])|]. split.
  - intros pi p H. destruct pi; discriminate.
  - intros pi p n i c H. destruct pi; discriminate.
Qed.

(** ** Sharing *)
Lemma share_other os p1 p2 p ci : Forall legal os -> problem_of (state os) p1 p -> p1 <> p2 ->
  (forall n, ~ In (n, ci) (p_comps p)) ->
  fst (step (WCompile p1) (snd (step (WAdd p2 ci) (state os)))) = fst (step (WCompile p1) (state os)).
Proof.
  intros Hl Hp Hne Hni. pose proof (reach_always os Hl) as Hr. set (w := state os) in *.
  assert (Hr' : Forall reachable (w_comps (snd (step (WAdd p2 ci) w)))) by (apply step_reach; [exact I|exact Hr]).
  unfold problem_of in Hp.
  cbn [step] in *. unfold add_component in *. destruct (nth_error (w_probs w) p2) as [q|] eqn:Eq; [|reflexivity].
  destruct (nth_error (w_comps w) ci) as [c|] eqn:Ec; [|reflexivity]. destruct (has_name _ _); [reflexivity|].
  destruct (update_model (p_model q) c) as [[u|e] c'] eqn:Eu; cbn [snd] in *;
   change (compile p1) with (step (WCompile p1)); apply compile_agree with (p := p); auto; cbn;
   try (rewrite nth_replace_other by congruence; exact Hp); try (now rewrite replace_length);
   intros n i c1 c2 Hi H1 H2; (destruct (Nat.eq_dec ci i) as [->|Hci]; [exfalso; eapply Hni; eauto|]);
   rewrite nth_replace_other in H2 by exact Hci; congruence.
Qed.
Lemma share_same m os p1 p2 p ci : wf_joints m -> Forall legal os -> Forall (single m) os -> problem_of (state os) p1 p -> p1 <> p2 ->
  fst (step (WCompile p1) (snd (step (WAdd p2 ci) (state os)))) = fst (step (WCompile p1) (state os)).
Proof.
  intros Hw Hl Hsi Hp Hne. destruct (in_dec Nat.eq_dec ci (map snd (p_comps p))) as [Hin|Hni].
  2: { eapply share_other; eauto. intros n Hin. apply Hni. apply in_map_iff. exists (n, ci). auto. }
  apply in_map_iff in Hin. destruct Hin as ((n0, ci') & E0 & Hin). cbn in E0. subst ci'.
  pose proof (reach_always os Hl) as Hr. pose proof (settled_always m os Hw Hsi) as [Hs1 Hs2]. set (w := state os) in *.
  assert (Hr' : Forall reachable (w_comps (snd (step (WAdd p2 ci) w)))) by (apply step_reach; [exact I|exact Hr]).
  unfold problem_of in Hp.
  cbn [step] in *. unfold add_component in *. destruct (nth_error (w_probs w) p2) as [q|] eqn:Eq; [|reflexivity].
  destruct (nth_error (w_comps w) ci) as [c|] eqn:Ec; [|reflexivity]. destruct (has_name _ _); [reflexivity|].
  rewrite (Hs1 _ _ Eq) in *. pose proof (rebind_same m c (Hs2 _ _ _ _ _ Hp Hin Ec)) as [Hok Hat].
  assert (Hc : reachable c) by (rewrite Forall_forall in Hr; apply Hr; eapply nth_error_In; eauto).
  assert (Hj : fst (jax_component (snd (update_model m c))) = fst (jax_component c)).
  { rewrite (jax_value _ (reachable_Inv _ Hc)), (jax_value _ (reachable_Inv _ (reachable_bind m c Hc))). now rewrite Hat. }
  destruct (update_model m c) as [[u|e] c'] eqn:Eu; cbn [snd fst] in *; [|discriminate].
  change (compile p1) with (step (WCompile p1)). apply compile_agree with (p := p); auto; cbn.
  - rewrite nth_replace_other by congruence. exact Hp.
  - now rewrite replace_length.
  - intros n i c1 c2 Hi H1 H2. destruct (Nat.eq_dec ci i) as [->|Hci].
    + rewrite (nth_replace_same _ _ _ _ Ec) in H2. congruence.
    + rewrite nth_replace_other in H2 by exact Hci. congruence.
Qed.
