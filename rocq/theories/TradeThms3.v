(** Speed, priority and further restrictions through the API. *)
From Verif Require Import Base Lin LinFacts Mjx Typing Component Problem SpecComponent SpecProblem SpecHistory SpecFit SpecShape JaxComponents LocalIK SpecQP QPFacts QPThms3 SpecSolve ScaleFacts ScaleThms SpecTrade TradeFacts TradeThms TradeThms2.
From Verif Require Import ComponentFacts ComponentFacts2 ProblemFacts ShareFacts ProbThms BatchFacts2 BatchFacts3 BatchThms FitFacts3.
Open Scope R_scope.
#[local] Arguments update_model : simpl never.
#[local] Arguments jax_component : simpl never.
#[local] Arguments run_cop : simpl never.
#[local] Arguments Nat.eqb : simpl never.

(** Raising the cost of one task. *)
Lemma priority_program L os pi pd n ci j s pd' d v v' : Forall legal os -> compiled_by os pi pd -> registered os pi n ci -> In (n, j) (jd_comps pd) -> (exists W lm k, j_ext j = JTask W lm k) -> 1 < s * s ->
  compiled_by (os ++ [WCop ci (OpCost (scaled_array s (task_cost (state os) ci)))]) pi pd' -> best L d pd v -> best L d pd' v' ->
  exists l1 l2 a b a' b', jd_comps pd = l1 ++ (n, j) :: l2 /\ cost_of L d j v a /\ total_cost L d (map snd (l1 ++ l2)) v b /\ cost_of L d j v' a' /\ total_cost L d (map snd (l1 ++ l2)) v' b' /\ a' <= a /\ b <= b'.
Proof.
  intros Hl Hc Hg Hj (W & lm & k & Hk) Hs Hc' B B'. destruct (call_compiled os pi pd n ci j (OpCost (scaled_array s (task_cost (state os) ci))) (rescaled s j) Hl Hc Hg Hj) as (l1 & l2 & E & C).
  - intros c Ec Rc Ej. pose proof Ej as Ep. rewrite (jax_value _ (reachable_Inv _ Rc)) in Ep. destruct (ext_task _ _ _ _ _ Ep Hk) as (t & kk & X). unfold task_cost. rewrite Ec, X. now apply (scaled_cost c t lm kk s j).
  - unfold compiled_by in C, Hc'. rewrite C in Hc'. injection Hc' as <-. destruct (priority L d pd l1 n j l2 s v v' E Hs B B') as (a & b & a' & b' & H). exists l1, l2, a, b, a', b'. tauto.
Qed.

(** Adding a component. *)
Lemma add_compiled os pi pd ci pd' : Forall legal os -> compiled_by os pi pd -> fst (step (WAdd pi ci) (state os)) = Ok ODone ->
  (forall p n, nth_error (w_probs (state os)) pi = Some p -> ~ In (n, ci) (p_comps p)) -> compiled_by (os ++ [WAdd pi ci]) pi pd' ->
  exists n j c c', pd' = extended pd n j /\ nth_error (w_comps (state os)) ci = Some c /\ update_model (jd_model pd) c = (Ok tt, c') /\ reachable c' /\ fst (jax_component c') = Ok j.
Proof.
  intros Hl Hc Ha Hno Hc'. pose proof (reach_always os Hl) as Hr. destruct (compiled_problem _ _ _ Hc) as (p & Pp). unfold compiled_by in *. fold (state os) in Hc. rewrite run_split in Hc'. fold (state os) in Hc'.
  unfold problem_of in Pp. rewrite (compile_eq pi (state os) p Hr Pp) in Hc. destruct (compile_pure (p_comps p) (w_comps (state os))) as [js|] eqn:Ej; [|discriminate]. cbn in Hc. injection Hc as <-.
  assert (Hr' : Forall reachable (w_comps (state (os ++ [WAdd pi ci])))) by (apply reach_always; apply Forall_app; split; [exact Hl|repeat constructor]). unfold state in Hr'. rewrite run_split in Hr'. fold (state os) in Hr'.
  unfold run in Hc', Hr'. cbn [fold_left] in Hc', Hr'. change (step (WAdd pi ci) (state os)) with (add_component pi ci (state os)) in *. unfold add_component in *. rewrite Pp in *.
  destruct (nth_error (w_comps (state os)) ci) as [c|] eqn:Ec; [|discriminate]. destruct (has_name _ p) eqn:Eh; [discriminate|]. destruct (update_model (p_model p) c) as [[[]|] c'] eqn:Eu; [|discriminate]. cbn [snd] in *.
  set (p' := mkP (p_model p) (p_vmin p) (p_vmax p) (p_comps p ++ [(a_name (c_at c'), ci)])) in *. rewrite (compile_eq pi _ p' Hr') in Hc'; [|cbn; eapply nth_replace_same; eauto].
  unfold p' in Hc'. cbn [p_comps p_model p_vmin p_vmax set_prob set_comp w_comps] in Hc'. rewrite compile_pure_app in Hc'.
  assert (O : forall l js, compile_pure l (w_comps (state os)) = Ok js -> (forall m, ~ In (m, ci) l) -> compile_pure l (replace_nth ci c' (w_comps (state os))) = Ok js).
  { induction l as [|(m, i) l IH]; intros js0 Hjs Hn; [exact Hjs|]. cbn in *. rewrite nth_replace_other by (intros <-; apply (Hn m); now left). destruct (nth_error _ i) as [c1|]; [|discriminate]. destruct (fst (jax_component c1)); [|discriminate]. cbn in *.
    destruct (compile_pure l (w_comps (state os))) as [js1|]; [|discriminate]. rewrite (IH js1 eq_refl); [exact Hjs|]. intros m' Hm. apply (Hn m'). now right. }
  rewrite (O _ _ Ej (fun m => Hno p m eq_refl)) in Hc'. cbn [bind compile_pure] in Hc'. rewrite (nth_replace_same _ _ _ _ Ec) in Hc'. destruct (fst (jax_component c')) as [j|] eqn:Ej'; [|discriminate]. cbn in Hc'. injection Hc' as <-.
  exists (a_name (c_at c')), j, c, c'. split; [reflexivity|]. split; [reflexivity|]. split; [exact Eu|]. split; [|exact Ej'].
  rewrite Forall_forall in Hr'. apply Hr'. cbn. eapply nth_error_In. eapply nth_replace_same. exact Ec.
Qed.

(** Multiplying a gain. *)
Lemma vconst_scaled s n x : vconst n (s * x) = vscale s (vconst n x).
Proof. unfold vconst, vscale. induction n; cbn; [reflexivity|]. now rewrite IHn. Qed.
Lemma gain_pure s a j : jax_pure a = Ok j -> undamped j -> jax_pure (set_a_gain a (scaled_array s (a_gain a))) = Ok (sped s j).
Proof.
  intros Hj Hu. unfold jax_pure in *. set (a' := set_a_gain a (scaled_array s (a_gain a))). change (a_model a') with (a_model a). change (a_dim a') with (a_dim a).
  destruct (a_model a) as [m|] eqn:Em; [|discriminate]. destruct (a_dim a =? -1)%Z eqn:Ed; [discriminate|].
  unfold build_pure in *. change (dim a') with (dim a). change (a_model a') with (a_model a). change (a_gain_fn a') with (a_gain_fn a).
  destruct (dim a) as [n|] eqn:En; [|discriminate]. cbn [bind] in *. destruct (opt ValueError (a_model a)) as [m'|]; [|discriminate]. cbn [bind] in *.
  destruct (vector_gain a) as [g|] eqn:Eg; [|discriminate]. cbn [bind] in *.
  assert (G : vector_gain a' = Ok (vscale s g)).
  { unfold vector_gain in *. change (a_dim a') with (a_dim a). change (a_gain a') with (scaled_array s (a_gain a)). change (ndim (scaled_array s (a_gain a))) with (ndim (a_gain a)). change (dim a') with (dim a).
    destruct (a_dim a =? -1)%Z; [discriminate|]. destruct (ndim (a_gain a)) as [|[|]]; [| |discriminate].
    - destruct (dim a) as [z|]; [|discriminate]. cbn [bind] in *. destruct (zsize z) as [k|]; [|discriminate]. cbn [bind] in *. unfold scalar_of in *. cbn [t_data scaled_array]. destruct (t_data (a_gain a)) as [|x [|]]; try discriminate. cbn [map bind] in *. injection Eg as <-. f_equal. apply vconst_scaled.
    - destruct (dim a) as [z|]; [|discriminate]. cbn [bind] in *. cbn [t_data scaled_array]. rewrite map_length. destruct (negb _); [discriminate|]. injection Eg as <-. reflexivity. }
  rewrite G. cbn [bind].
  assert (F : forced a' = match forced a with Ok b => Ok (set_a_gain b (scaled_array s (a_gain a))) | Err e => Err e end).
  { unfold a'. generalize (scaled_array s (a_gain a)) as g'. clear. intros g'. destruct a as [nm mo ga gf di mk mi ex]. unfold forced, set_a_gain, get_default_mask, dim. cbn. destruct mk; [reflexivity|]. destruct (di =? -1)%Z; [reflexivity|]. cbn. destruct (zsize di); reflexivity. }
  rewrite F. destruct (forced a) as [b|] eqn:Eb; [|discriminate]. cbn [bind] in *.
  assert (X : build_ext (set_a_gain b (scaled_array s (a_gain a))) = build_ext b) by (destruct b; reflexivity). rewrite X. destruct (build_ext b) as [e|] eqn:Ee; [|discriminate]. cbn [bind] in *. injection Hj as <-.
  change (a_mask_idxs (set_a_gain b (scaled_array s (a_gain a)))) with (a_mask_idxs b). unfold sped. cbn [j_dim j_model j_gain j_gain_fn j_mask_idxs j_ext]. f_equal. f_equal.
  unfold undamped in Hu. cbn [j_ext] in Hu. destruct e; try reflexivity. rewrite Hu. unfold Rdiv. now rewrite Rmult_0_l.
Qed.
Lemma gain_call s c j : reachable c -> fst (jax_component c) = Ok j -> undamped j -> fst (jax_component (after (OpGain (scaled_array s (a_gain (c_at c)))) c)) = Ok (sped s j).
Proof.
  intros Hr Hj Hu. rewrite (jax_value _ (reachable_Inv _ Hr)) in Hj. pose proof (reachable_after (OpGain (scaled_array s (a_gain (c_at c)))) c Hr) as Hr'. rewrite (jax_value _ (reachable_Inv _ Hr')).
  assert (N : Nat.ltb 1 (ndim (a_gain (c_at c))) = false).
  { unfold jax_pure, build_pure in Hj. destruct (a_model (c_at c)); [|discriminate]. destruct (a_dim (c_at c) =? -1)%Z eqn:Ed; [discriminate|]. destruct (dim (c_at c)); [|discriminate]. cbn [bind] in Hj. destruct (opt ValueError _); [|discriminate]. cbn [bind] in Hj.
    destruct (vector_gain (c_at c)) eqn:Eg; [|discriminate]. unfold vector_gain in Eg. rewrite Ed in Eg. destruct (ndim (a_gain (c_at c))) as [|[|]]; [reflexivity|reflexivity|discriminate]. }
  unfold after, run_cop, update_gain. change (ndim (scaled_array s (a_gain (c_at c)))) with (ndim (a_gain (c_at c))). rewrite N. exact (gain_pure s (c_at c) j Hj Hu).
Qed.
Lemma compile_pure_sped s l : forall cs cs' js, compile_pure l cs = Ok js ->
  (forall n i c j, In (n, i) l -> nth_error cs i = Some c -> fst (jax_component c) = Ok j -> In (n, j) js -> exists c', nth_error cs' i = Some c' /\ fst (jax_component c') = Ok (sped s j)) ->
  compile_pure l cs' = Ok (map (fun e => (fst e, sped s (snd e))) js).
Proof.
  induction l as [|(n, i) l IH]; intros cs cs' js H Hc; cbn in *; [now injection H as <-|].
  destruct (nth_error cs i) as [c|] eqn:E; [|discriminate]. destruct (fst (jax_component c)) as [j|] eqn:Ej; [|discriminate]. cbn in H. destruct (compile_pure l cs) as [js'|] eqn:El; [|discriminate]. cbn in H. injection H as <-.
  destruct (Hc n i c j (or_introl eq_refl) E Ej (or_introl eq_refl)) as (c' & E' & Ej'). rewrite E', Ej'. cbn. rewrite (IH cs cs' js' El); [reflexivity|].
  intros n' i' c1 j1 Hi E1 E2 E3. apply (Hc n' i' c1 j1); auto. now right.
Qed.
Lemma limit_scaled m s v : List.length v = m_nv m -> limit_vector m (tvec (vscale s v)) = Ok (vscale s v).
Proof. intros H. unfold limit_vector, tvec, ndim. cbn [t_shape List.length t_data]. assert (E : List.length (vscale s v) = m_nv m) by (unfold vscale; now rewrite map_length). rewrite E, Nat.eqb_refl. reflexivity. Qed.
Lemma run_more a b w : run (a ++ b) w = run b (run a w).
Proof. unfold run. apply fold_left_app. Qed.
Lemma speed_compiled os pi pd s cis : Forall legal os -> compiled_by os pi pd -> Forall undamped (comps_of pd) -> lists_all (state os) pi cis -> Forall wf_wop os ->
  compiled_by (os ++ speed_up s (state os) pi cis) pi (sped_problem s pd).
Proof.
  intros Hl Hc Hu [Hn Ht] Hw. pose proof (reach_always os Hl) as Hr. destruct (compiled_problem _ _ _ Hc) as (p & Pp). unfold compiled_by in *. fold (state os) in Hc. rewrite run_split. fold (state os).
  unfold problem_of in Pp. rewrite (compile_eq pi (state os) p Hr Pp) in Hc. destruct (compile_pure (p_comps p) (w_comps (state os))) as [js|] eqn:Ej; [|discriminate]. cbn in Hc. injection Hc as <-. destruct (limits_length os pi p Hw Pp) as [S1 S2].
  unfold speed_up. set (f := fun ci => OpGain (scaled_array s (gain_of (state os) ci))). change (map (fun ci => WCop ci (OpGain (scaled_array s (gain_of (state os) ci)))) cis) with (map (fun ci => WCop ci (f ci)) cis).
  rewrite run_more. destruct (run_cops f cis (state os) Hn) as (A & B & C). set (w' := run (map (fun ci => WCop ci (f ci)) cis) (state os)) in *.
  assert (Hr' : Forall reachable (w_comps w')).
  { apply Forall_forall. intros c Hc. apply In_nth_error in Hc. destruct Hc as [i Hi]. rewrite Forall_forall in Hr. destruct (in_dec Nat.eq_dec i cis) as [Y|N].
    - rewrite C in Hi by exact Y. destruct (nth_error (w_comps (state os)) i) as [c0|] eqn:E0; [|discriminate]. injection Hi as <-. apply reachable_after. apply Hr. eapply nth_error_In; eauto.
    - rewrite B in Hi by exact N. apply Hr. eapply nth_error_In; eauto. }
  unfold limits_of. rewrite Pp. cbn [fst snd]. unfold run. cbn [fold_left step]. rewrite A, Pp. unfold update_v_min. rewrite limit_scaled by exact S1. cbn [bind snd]. cbn [set_prob w_probs w_comps].
  rewrite A, (nth_replace_same _ _ _ _ Pp). unfold update_v_max. cbn [p_model p_vmin p_vmax p_comps]. rewrite limit_scaled by exact S2. cbn [bind snd].
  match goal with |- fst (compile pi ?w) = _ => change (fst (compile pi w)) with (fst (step (WCompile pi) w)); set (w'' := w) end.
  rewrite (compile_eq pi w'' (mkP (p_model p) (vscale s (p_vmin p)) (vscale s (p_vmax p)) (p_comps p))); [| exact Hr' | unfold w''; cbn [set_prob w_probs]; eapply nth_replace_same; eapply nth_replace_same; rewrite A; exact Pp].
  unfold w''. cbn [p_comps p_model p_vmin p_vmax set_prob w_comps].
  rewrite (compile_pure_sped s _ (w_comps (state os)) (w_comps w') js Ej); [reflexivity|].
  intros n i c j Hi Ec Ecj Hj. assert (Rc : reachable c) by (rewrite Forall_forall in Hr; apply Hr; eapply nth_error_In; eauto).
  assert (Y : In i cis) by (apply Ht; eauto). rewrite C by exact Y. rewrite Ec. cbn. eexists. split; [reflexivity|]. unfold f, gain_of. rewrite Ec. apply gain_call; [exact Rc|exact Ecj|].
  rewrite Forall_forall in Hu. apply Hu. unfold comps_of. cbn. apply in_map_iff. exists (n, j). auto.
Qed.
Lemma speed_program L os pi pd s cis : Forall legal os -> Forall wf_wop os -> compiled_by os pi pd -> Forall undamped (comps_of pd) -> lists_all (state os) pi cis -> 0 < s ->
  exists pd', compiled_by (os ++ speed_up s (state os) pi cis) pi pd' /\ forall d v, best L d pd' (vscale s v) <-> best L d pd v.
Proof. intros Hl Hw Hc Hu Ht Hs. exists (sped_problem s pd). split; [now apply speed_compiled|]. intros d v. now apply sped_best. Qed.
