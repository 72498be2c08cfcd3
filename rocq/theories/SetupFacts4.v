(** Lemmas behind C92: the whole control loop. *)
From Verif Require Import Base Lin LinFacts Mjx Typing Component Problem SpecComponent SpecJoint SpecHistory SpecTyping SpecCollision SpecTree SpecShape SpecContact SpecValue SpecProblem SpecQP SpecFit SpecTrace SpecSetup.
From Verif Require Import ComponentFacts ComponentFacts2 ApiSteps JointFacts BindFacts BindFacts2 BindFacts3 CoreFacts ProblemFacts CompThms BindThms ProbThms ShareFacts FitFacts FitFacts3 SetupFacts SetupFacts2 SetupFacts3 JaxComponents LocalIK SpecMotion MotionFacts2 DescentThms TraceFacts.
Open Scope nat_scope.
#[local] Arguments update_model : simpl never.
#[local] Arguments jax_component : simpl never.
#[local] Arguments build_component : simpl never.

(** The invariant: plain, and joint bounds know their dimension. *)
Definition joint_dims (m : mjmodel) (a : attrs) : Prop :=
  match a_ext a with
  | XBarrier _ (BJoint j) => a_dim a = Z.of_nat (2 * List.length (selected m (jb_final j))) /\ (forall q, jb_qidx j = Some q -> q = qidx_of m (jb_final j)) /\
      a_model a = Some m /\ mask_fits m (jb_final j) /\ indices a = Ok (vidx_of m (jb_final j))
  | _ => True
  end.
Definition plain_op (o : cop) : Prop := plain_call (WCop 0 o).
Lemma joint_dims_kin m a a' : kin a a' -> joint_dims m a -> joint_dims m a'.
Proof.
  intros (K1 & K2 & _ & K4 & K5). unfold joint_dims.
  destruct (a_ext a) as [? ? []|? [|j| |]|]; destruct (a_ext a') as [? ? []|? [|j'| |]|]; cbn in K5; try discriminate K5; auto.
  injection K5 as E1 E2. rewrite K1, K2, K4, E1, E2. auto.
Qed.
Lemma plain_ext m c c' : a_ext (c_at c') = a_ext (c_at c) -> plain m c -> plain m c'.
Proof. unfold plain. now intros ->. Qed.
Lemma convert_seven (v : list R) : List.length v = 7 -> List.length (convert_frames v) = 7.
Proof. do 7 (destruct v as [|? v]; [discriminate|]). destruct v; [reflexivity|discriminate]. Qed.

Lemma forced_ext a a' : forced a = Ok a' -> a_ext a' = a_ext a.
Proof. intros F. now destruct (forced_other _ _ F) as (_ & _ & _ & _ & _ & ->). Qed.
Lemma mask_ext c : a_ext (c_at (snd (mask c))) = a_ext (c_at c).
Proof.
  unfold mask, mseq, mbind. rewrite force_eq. destruct (forced (c_at c)) as [a'|e] eqn:F; cbn; [|reflexivity].
  destruct (a_mask (c_at c)) eqn:E; cbn; [reflexivity|]. now apply forced_ext.
Qed.
Lemma mask_idxs_ext c : a_ext (c_at (snd (mask_idxs c))) = a_ext (c_at c).
Proof. rewrite mask_idxs_snd. destruct (forced (c_at c)) eqn:F; [|reflexivity]. now apply forced_ext. Qed.
Lemma jax_ext c : a_ext (c_at (snd (jax_component c))) = a_ext (c_at c).
Proof.
  unfold jax_component, mbind, read, raise. cbn.
  destruct (a_model (c_at c)); cbn; [|reflexivity].
  destruct (a_dim (c_at c) =? -1)%Z; cbn; [reflexivity|].
  destruct (c_modified c).
  - pose proof (build_at c) as H. destruct (build_component c) as [[j|e] c'] eqn:E; cbn in *;
      (destruct H as [H|H]; [cbn; congruence|cbn; try rewrite <- H; now apply forced_ext]).
  - destruct (c_cache c); reflexivity.
Qed.
Lemma pmin_plain m t c : is_vec t \/ (exists x, t = tscalar x) -> plain m c -> plain m (snd (update_p_min t c)).
Proof.
  intros Ht Hp. unfold update_p_min. unfold mbind at 1. unfold read. cbn. destruct (a_ext (c_at c)) as [|s [p| | |]|] eqn:E; try exact Hp.
  unfold mbind at 1. apply mask_idxs_case; [|intros; exact Hp].
  intros a' c' F Hc'. pose proof (forced_ext _ _ F) as E'. rewrite E in E'.
  assert (Hp' : plain m c') by (apply (plain_ext m c); [rewrite Hc', E'; auto|exact Hp]). 
  assert (G : forall t', is_vec t' -> plain m (snd ((if negb (includes_min (pb_lt p)) then ret tt
       else seta (fun a => set_a_ext a (XBarrier s (BPos (mkPB (pb_obj p) (pb_lt p) (pb_lt_idxs p) t' (pb_max p)))))) c'))).
  { intros t' Hv. destruct (includes_min (pb_lt p)); cbn; [|exact Hp']. unfold plain in *. cbn. rewrite E in Hp. tauto. }
  destruct Ht as [[v ->]|[x ->]].
  - replace (Nat.eqb (ndim (tvec v)) 0) with false by reflexivity. unfold mbind, lift.
    destruct (last_dim_neq (tvec v) (Z.of_nat (List.length (a_mask_idxs a')))) as [[|]|]; unfold ret, raise; try exact Hp'. apply G. now exists v.
  - cbn. apply G. now eexists.
Qed.
Lemma pmax_plain m t c : is_vec t \/ (exists x, t = tscalar x) -> plain m c -> plain m (snd (update_p_max t c)).
Proof.
  intros Ht Hp. unfold update_p_max. unfold mbind at 1. unfold read. cbn. destruct (a_ext (c_at c)) as [|s [p| | |]|] eqn:E; try exact Hp.
  unfold mbind at 1. apply mask_idxs_case; [|intros; exact Hp].
  intros a' c' F Hc'. pose proof (forced_ext _ _ F) as E'. rewrite E in E'.
  assert (Hp' : plain m c') by (apply (plain_ext m c); [rewrite Hc', E'; auto|exact Hp]). 
  assert (G : forall t', is_vec t' -> plain m (snd ((if negb (includes_max (pb_lt p)) then ret tt
       else seta (fun a => set_a_ext a (XBarrier s (BPos (mkPB (pb_obj p) (pb_lt p) (pb_lt_idxs p) (pb_min p) t'))))) c'))).
  { intros t' Hv. destruct (includes_max (pb_lt p)); cbn; [|exact Hp']. unfold plain in *. cbn. rewrite E in Hp. tauto. }
  destruct Ht as [[v ->]|[x ->]].
  - replace (Nat.eqb (ndim (tvec v)) 0) with false by reflexivity. unfold mbind, lift.
    destruct (last_dim_neq (tvec v) (Z.of_nat (List.length (a_mask_idxs a')))) as [[|]|]; unfold ret, raise; try exact Hp'. apply G. now exists v.
  - cbn. apply G. now eexists.
Qed.

Ltac go := unfold mseq, mbind, read, lift, raise, seta, ret; cbn [fst snd c_at].
Lemma plain_after m o c : tuning o -> plain_op o -> joint_dims m (c_at c) -> plain m c -> plain m (after o c).
Proof.
  intros [o' Hn Hw|b|x|x] Ho Hj Hp.
  - unfold after. destruct o'; cbn in Hn; try contradiction; cbn [run_cop].
    + unfold update_gain. go. destruct (Nat.ltb 1 (ndim t)); exact Hp.
    + unfold update_cost. go. destruct (a_ext (c_at c)) as [cost lm k| |] eqn:E; try exact Hp. destruct (Nat.ltb 2 (ndim t)); [exact Hp|]. unfold plain in *. cbn. rewrite E in Hp. destruct k; exact Hp.
    + unfold update_target_com. go. destruct (a_ext (c_at c)) as [cost lm []| |] eqn:E; try exact Hp. destruct (last_dim_neq t _) as [[]|]; try exact Hp. exact Ho.
    + unfold update_target_pos. go. destruct (a_ext (c_at c)) as [cost lm []| |] eqn:E; try exact Hp. destruct (last_dim_neq t _) as [[]|]; try exact Hp. unfold plain in *. cbn. rewrite E in Hp. split; [apply Hp|exact Ho].
    + unfold update_target_frame. go. destruct (a_ext (c_at c)) as [cost lm []| |] eqn:E; try exact Hp. destruct f as [t|t].
      * unfold plain in *. cbn. rewrite E in Hp. split; [apply Hp|exact Ho].
      * unfold plain_op, plain_call in Ho. destruct Ho as [v ->]. unfold last_dim_neq. rewrite ApiSteps.last_dim_tvec. cbn [bind]. destruct (negb (Z.of_nat (List.length v) =? 7)%Z) eqn:En; [exact Hp|].
        apply negb_false_iff, Z.eqb_eq in En. unfold plain in *. cbn. rewrite E in Hp. split; [apply Hp|]. exists (convert_frames v). assert (L : List.length v = 7) by lia. unfold tvec. rewrite (convert_seven v L), L. auto.
    + unfold update_target_q. go. destruct (a_ext (c_at c)) as [cost lm []| |] eqn:E; try exact Hp. destruct (a_dim (c_at c) =? -1)%Z; [|destruct (last_dim_neq t _) as [[]|]; try exact Hp];
       unfold plain; cbn; intros t' X; injection X as <-; exact Ho.
    + now apply pmin_plain.
    + now apply pmax_plain.
    + unfold update_q_min. go. destruct (a_ext (c_at c)) as [|s [|j| |]|] eqn:E; try exact Hp. destruct Ho as [v ->]. rewrite ApiSteps.last_dim_tvec. unfold dim. destruct (a_dim (c_at c) =? -1)%Z; try exact Hp.
      destruct (negb (Z.of_nat (List.length v) =? a_dim (c_at c) / 2)%Z) eqn:En; [exact Hp|]. apply negb_false_iff, Z.eqb_eq in En.
      unfold plain, joint_dims in *. rewrite E in Hp, Hj. cbn. destruct Hj as [Hj _]. rewrite Hj, Nat2Z.inj_mul in En. change (Z.of_nat 2) with 2%Z in En. rewrite half_double in En. apply Nat2Z.inj in En.
      intros t [X|X]; [injection X as <-; exists v; auto|apply Hp; auto].
    + unfold update_q_max. go. destruct (a_ext (c_at c)) as [|s [|j| |]|] eqn:E; try exact Hp. destruct Ho as [v ->]. rewrite ApiSteps.last_dim_tvec. unfold dim. destruct (a_dim (c_at c) =? -1)%Z; try exact Hp.
      destruct (negb (Z.of_nat (List.length v) =? a_dim (c_at c) / 2)%Z) eqn:En; [exact Hp|]. apply negb_false_iff, Z.eqb_eq in En.
      unfold plain, joint_dims in *. rewrite E in Hp, Hj. cbn. destruct Hj as [Hj _]. rewrite Hj, Nat2Z.inj_mul in En. change (Z.of_nat 2) with 2%Z in En. rewrite half_double in En. apply Nat2Z.inj in En.
      intros t [X|X]; [apply Hp; auto|injection X as <-; exists v; auto].
    + rewrite ignore_at. apply (plain_ext m c); [apply mask_ext|exact Hp].
    + rewrite ignore_at. apply (plain_ext m c); [apply mask_idxs_ext|exact Hp].
    + rewrite ignore_at. apply (plain_ext m c); [apply jax_ext|exact Hp].
  - unfold after, plain in *. cbn. unfold assign_active. destruct (a_ext (c_at c)) eqn:E; cbn; rewrite ?E; exact Hp || exact I.
  - unfold after, plain in *. cbn. unfold assign_safe_displacement_gain. destruct (a_ext (c_at c)) eqn:E; cbn; rewrite ?E; exact Hp.
  - unfold after, plain in *. cbn. unfold assign_d_min. destruct (a_ext (c_at c)) as [|s [| |k|]|] eqn:E; cbn; rewrite ?E; exact Hp || exact I.
Qed.

Lemma plain_bound m c d : sound_model m -> suits m c d -> plain m c -> fst (update_model m c) = Ok tt -> plain m (bound m c) /\ joint_dims m (c_at (bound m c)).
Proof.
  intros Hm Hs Hp Ok_. destruct Hm as ((Wj & _) & Wb & _ & Wn & _ & We & _). unfold bound. unfold suits in Hs.
  destruct (a_ext (c_at c)) as [cost lm k|sdg k|act h soft k] eqn:E; [destruct k as [t|o t|o t|j|f]|destruct k as [p|j|s|f]|destruct k as [|f]].
  - assert (HU : update_model m c = seta (fun a => set_a_model a m) c) by (unfold update_model, mbind, read; now rewrite E).
    rewrite HU. unfold plain, joint_dims in *. cbn. rewrite E in *. auto.
  - assert (Ho : object_of (c_at c) = Some o) by (unfold object_of; now rewrite E). rewrite (obj_bind _ _ _ Ho) in *.
    destruct (_ =? _)%Z; [discriminate|]. unfold plain, joint_dims, set_obj_id in *. cbn. rewrite E in *. cbn. auto.
  - assert (Ho : object_of (c_at c) = Some o) by (unfold object_of; now rewrite E). rewrite (obj_bind _ _ _ Ho) in *.
    destruct (_ =? _)%Z; [discriminate|]. unfold plain, joint_dims, set_obj_id in *. cbn. rewrite E in *. cbn. auto.
  - destruct (joint_task_bind m c cost lm j Wj E) as [_ B2]. destruct Hs as (_ & _ & F & _). destruct (B2 F) as (_ & D & Mo & _ & _ & G & X).
    unfold plain, joint_dims in *. rewrite X. rewrite E in Hp. cbn. split; [|exact I]. intros t Ht. destruct (jt_target j); [now apply Hp|]. injection Ht as <-. now eexists.
  - assert (HU : update_model m c = seta (fun a => set_a_model a m) c) by (unfold update_model, mbind, read; now rewrite E).
    rewrite HU. unfold plain, joint_dims in *. cbn. rewrite E in *. auto.
  - assert (Ho : object_of (c_at c) = Some (pb_obj p)) by (unfold object_of; now rewrite E). rewrite (obj_bind _ _ _ Ho) in *.
    destruct (_ =? _)%Z; [discriminate|]. unfold plain, joint_dims, set_obj_id in *. cbn. rewrite E in *. cbn. auto.
  - destruct (joint_barrier_bind m c sdg j Wj E) as [_ B2]. destruct Hs as (_ & F & _ & N). destruct (B2 F) as (D & Mo & MI & MK & G & U & _ & X). specialize (X Ok_).
    unfold plain, joint_dims in *. rewrite X. rewrite E in Hp. cbn [jb_qmin jb_qmax jb_final jb_qidx]. split.
    + assert (Z : forall g : nat -> R, jb_qmin j = None \/ jb_qmax j = None -> vec_of_length (List.length (selected m (jb_final j))) (tvec (map g (scalar_joints (m_jnt_type m) 0)))).
      { intros g Hg. eexists. split; [reflexivity|]. rewrite map_length. symmetry. now apply N. }
      intros t [Ht|Ht].
      * destruct (jb_qmin j) eqn:Q; [apply Hp; auto|]. injection Ht as <-. apply Z. auto.
      * destruct (jb_qmax j) eqn:Q; [apply Hp; auto|]. injection Ht as <-. apply Z. auto.
    + split; [rewrite D, Nat2Z.inj_mul; reflexivity|]. split; [intros q Hq; now injection Hq as <-|]. split; [exact Mo|]. split; [exact F|]. unfold indices, forced. rewrite MK. cbn [bind]. now rewrite MI.
  - assert (B := self_bind m c sdg s E). destruct (exclude_set m (sc_excl_raw s) []); [|congruence]. destruct (generate_collision_pairs m (listed m (sc_bodies s)) _); [|congruence]. cbn zeta in B. rewrite B. unfold plain, joint_dims. cbn. auto.
  - assert (HU : update_model m c = seta (fun a => set_a_model a m) c) by (unfold update_model, mbind, read; now rewrite E).
    rewrite HU. unfold plain, joint_dims in *. cbn. rewrite E in *. auto.
  - destruct (equality_bind m c act h soft E We) as [B1 _]. destruct Hs as (_ & _ & F & _). rewrite (B1 F). unfold plain, joint_dims. cbn. rewrite E. auto.
  - assert (HU : update_model m c = seta (fun a => set_a_model a m) c) by (unfold update_model, mbind, read; now rewrite E).
    rewrite HU. unfold plain, joint_dims in *. cbn. rewrite E in *. auto.
Qed.
Lemma plain_accepted m c j L d : plain m c -> joint_dims m (c_at c) -> published c j -> needs_care j \/ accepted L d j.
Proof.
  intros Hp Hj (_ & _ & _ & _ & _ & _ & P7). unfold plain, joint_dims, needs_care, accepted in *.
  inversion P7 as [? ? ? ? X M|? ? ? ? ? X M|? ? ? ? ? X M|? ? ? ? ? ? X M|? ? ? ? X M|? ? ? ? ? ? X M|? ? ? ? ? X|? ? ? ? ? ? ? X M|? ? X|? ? ? ? X M|? ? ? ? ? X M]; rewrite X in *; auto; right.
  - destruct Hj as (_ & Hj & _). cbn in *. rewrite (Hj _ eq_refl). unfold qidx_of. rewrite map_length. split; apply Hp; auto.
Qed.

(** A joint barrier on at least one joint has a non-zero Jacobian. *)
Lemma joint_dims_frob m c j L d J : wf_joints m -> joint_dims m (c_at c) -> published c j -> (exists s l h q, j_ext j = JBarrier s (JBJoint l h q)) ->
  jacobian L j d = Ok J -> frob2 J = 0%R -> j_dim j = 0%Z.
Proof.
  intros Hw Hj (_ & P2 & P3 & P4 & _ & P6 & P7) (s & l & h & q & He) HJ HZ. rewrite He in P7. inversion P7 as [| | | | | |? ? ? ? ? X| | | |]; subst. unfold joint_dims in Hj. rewrite X in Hj. cbn [jb_final jb_qidx] in Hj.
  destruct Hj as (D & Q & Mo & F & Ix). assert (m = j_model j) by congruence; subst m.
  assert (B : exists fm, jb_facts fm j /\ j_dim j = Z.of_nat (2 * List.length (selected (j_model j) fm))).
  { eexists. split; [|rewrite P2; exact D]. split; [exact Hw|]. split; [exact F|]. split; [rewrite P2, D, Nat2Z.inj_mul; reflexivity|].
    split; [rewrite mask_idxs_fst in P6; unfold indices in Ix; congruence|]. split; [eapply vector_gain_length; eassumption|]. do 3 eexists. rewrite He. do 2 f_equal. now apply Q. }
  destruct B as (f & B & E). rewrite E. destruct (selected (j_model j) f) as [|k ks] eqn:S; [reflexivity|exfalso].
  assert (S0 : selected (j_model j) f <> []) by (rewrite S; discriminate). exact (jb_frob f j L d J B S0 HJ HZ).
Qed.
Lemma loop_plain m lo hi cs os pd : sound_model m -> wf_tensor lo -> wf_tensor hi -> Forall constructed cs -> Forall (fun c => wf_arrays (c_at c)) cs ->
  limit_fits m lo -> limit_fits m hi -> NoDup (map nm cs) -> Forall (fun c => exists d, suits m c d) cs -> Forall (plain m) cs ->
  Forall steering os -> Forall proper os -> Forall plain_call os ->
  compiled_by (setup m lo hi cs ++ os) 0 pd -> forall j, In j (comps_of pd) -> exists c', published c' j /\ plain m c' /\ joint_dims m (c_at c').
Proof.
  intros Hm Wl Wh Hc Hw Fl Fh Nd Hs Hpl Hst Hpr Hpc Hpd.
  assert (Ht : Forall tuning_step os) by (eapply Forall_impl; [|exact Hst]; intros o [X _]; exact X).
  destruct (setup_tuned m lo hi cs os Hm Wl Wh Hc Hw Fl Fh Nd Hs Ht) as (p & Ep & P1 & P2 & P3 & _).
  assert (Hb : Forall (bodies_known m) cs) by (eapply Forall_impl; [|exact Hs]; apply suits_known).
  destruct (proj2 (setup_iff m lo hi cs Hm Wl Wh Hc Hw Hb)) as [R _]; [auto|].
  destruct (setup_runs m lo hi cs Wl Wh) as [S1 S2]. destruct (S2 R) as (vl & vh & _ & _ & E). apply S1 in R as (_ & _ & R & _).
  assert (EW : state (setup m lo hi cs ++ os) = run os (mkW (map (bound m) cs) [mkP m vl vh (combine (map nm cs) (seq 0 (List.length cs)))])).
  { unfold state, run. rewrite fold_left_app. unfold state, run in E. now rewrite E. }
  assert (T : Forall2 (fun c c' => joint_dims m (c_at c) /\ plain m c -> joint_dims m (c_at c') /\ plain m c') (map (bound m) cs) (w_comps (state (setup m lo hi cs ++ os)))).
  { rewrite EW. refine (over_run (fun c c' => joint_dims m (c_at c) /\ plain m c -> joint_dims m (c_at c') /\ plain m c') (fun o => tuning o /\ plain_op o) _ _ _ _ os Ht _ (mkW (map (bound m) cs) [mkP m vl vh (combine (map nm cs) (seq 0 (List.length cs)))])); auto.
    - intros o c [H1 H2] [H3 H4]. split; [exact (joint_dims_kin m _ _ (kin_tuning o c H1) H3)|now apply plain_after].
    - split; [apply tune_call; exact I|exact I].
    - clear - Ht Hpc. rewrite Forall_forall in *. intros o Ho. specialize (Ht o Ho). specialize (Hpc o Ho). destruct o as [| |ci o| | | | | | | |]; cbn in *; auto. }
  assert (Hl : Forall legal (setup m lo hi cs ++ os)) by (apply Forall_app; split; [now apply setup_legal|now apply tuned_ops]).
  pose proof (reach_always _ Hl) as Hr. rewrite Forall_forall in Hr.
  destruct (proj1 (proj1 (compile_spec _ 0 p Hl Ep) pd) Hpd) as (_ & _ & _ & S4).
  intros j Hj. unfold comps_of in Hj. apply in_map_iff in Hj as (e & <- & Hin).
    apply In_nth_error in Hin as [i Hi]. destruct (Forall2_nth_l _ _ _ _ _ S4 Hi) as ([n k] & E3 & _ & c' & E4 & J). cbn [snd] in *.
    destruct (Forall2_nth_l _ _ _ _ _ T E4) as (c0 & E5 & Q). rewrite nth_error_map in E5. destruct (nth_error cs k) as [c|] eqn:E6; [|discriminate]. injection E5 as <-.
    apply nth_error_In in E6. rewrite Forall_forall in Hs, Hpl, R. destruct (Hs c E6) as [dd D]. destruct (plain_bound m c dd Hm D (Hpl c E6) (R c E6)) as [B1 B2]. destruct (Q (conj B2 B1)) as [Q1 Q2].
    exists c'. split; [|auto]. apply availability; [apply Hr; eapply nth_error_In; eauto|exact J].
Qed.
Lemma loop_solves m lo hi cs os : sound_model m -> wf_tensor lo -> wf_tensor hi -> Forall constructed cs -> Forall (fun c => wf_arrays (c_at c)) cs ->
  limit_fits m lo -> limit_fits m hi -> NoDup (map nm cs) -> Forall (fun c => exists d, suits m c d) cs -> Forall (plain m) cs ->
  Forall steering os -> Forall proper os -> Forall plain_call os ->
  exists pd, compiled_by (setup m lo hi cs ++ os) 0 pd /\
  forall L So q v, sound_lib L m -> t_shape q = [m_nq m] -> let d := update L m (t_data q) in wf_data m d ->
    (forall j, In j (comps_of pd) -> needs_care j -> accepted L d j) ->
    (exists Q, assemble L m pd d = Ok Q /\ solve L So m q v pd = Ok (So Q, sol_primal (So Q))) \/
    (solve L So m q v pd = Err NonFinite /\ exists j J, In j (comps_of pd) /\ is_barrier j = true /\ jacobian L j d = Ok J /\ frob2 J = 0%R /\
       ((exists s l h x, j_ext j = JBarrier s (JBJoint l h x)) -> j_dim j = 0%Z)).
Proof.
  intros Hm Wl Wh Hc Hw Fl Fh Nd Hs Hpl Hst Hpr Hpc. destruct (loop_compiles m lo hi cs os Hm Wl Wh Hc Hw Fl Fh Nd Hs Hst) as (pd & Hpd & _). exists pd. split; [exact Hpd|].
  intros L So q v HL Hq d Hd Hcare.
  pose proof (loop_plain m lo hi cs os pd Hm Wl Wh Hc Hw Fl Fh Nd Hs Hpl Hst Hpr Hpc Hpd) as G.
  destruct (program_solves L So m (setup m lo hi cs ++ os) 0 pd q v) as [X|(X & j & J & H1 & H2 & H3 & H4)]; auto; [now apply loop_tidy| |].
  - apply Forall_forall. intros j Hj. destruct (G j Hj) as (c' & Pb & Q2 & Q1). destruct (plain_accepted m c' j L d Q2 Q1 Pb) as [N|A]; [|exact A]. now apply Hcare.
  - right. split; [exact X|]. exists j, J. do 4 (split; [assumption|]). intros He. destruct (G j H1) as (c' & Pb & _ & Q1). destruct Hm as ((Wj & _) & _). exact (joint_dims_frob m c' j L d J Wj Q1 Pb He H3 H4).
Qed.
