(** Nearby targets give nearby velocities. *)
From Verif Require Import Base Lin LinFacts Mjx Typing Component Problem SpecComponent SpecProblem SpecJoint SpecHistory SpecShape SpecFit JaxComponents LocalIK SpecQP QPFacts QPThms QPThms2 QPThms3 QPThms4 SpecSolve SolveFacts SolveThms SpecTrade TradeFacts TradeThms TradeThms2 SpecTol TolThms3 SpecDeriv DerivThms Conf SpecMotion SpecConf.
From Verif Require Import ComponentFacts ComponentFacts2 ApiSteps ProblemFacts ShareFacts ProbThms BatchFacts2 BatchThms FitFacts FitFacts2 FitFacts3 ScaleThms SpecMove MoveFacts MoveThms.
Open Scope R_scope.
#[local] Arguments jax_component : simpl never.

Lemma retask_pure a t lm k k' j W jk jk' : a_ext a = XTask t lm k -> jax_pure a = Ok j -> j_ext j = JTask W lm jk ->
  (match k' with TCom t => Ok (JTCom t) | TPos o t => Ok (JTPos (ob_id o) (ob_type o) t) | TFrame o t => Ok (JTFrame (ob_id o) (ob_type o) t)
   | TJoint j => do t <- opt ValueError (jt_target j); do q <- opt AttributeError (jt_qidx j); Ok (JTJoint t q) | TCustom f => Ok (JTCustom f) end) = Ok jk' ->
  jax_pure (set_a_ext a (XTask t lm k')) = Ok (mkJ (j_dim j) (j_model j) (j_gain j) (j_gain_fn j) (j_mask_idxs j) (JTask W lm jk')).
Proof.
  intros E Hj HW Hk. unfold jax_pure in *. change (a_model (set_a_ext a (XTask t lm k'))) with (a_model a). change (a_dim (set_a_ext a (XTask t lm k'))) with (a_dim a).
  destruct (a_model a) as [m|] eqn:Em; [|discriminate]. destruct (a_dim a =? -1)%Z eqn:Ed; [discriminate|].
  unfold build_pure in *. change (dim (set_a_ext a (XTask t lm k'))) with (dim a). change (a_model (set_a_ext a (XTask t lm k'))) with (a_model a).
  change (vector_gain (set_a_ext a (XTask t lm k'))) with (vector_gain a). change (a_gain_fn (set_a_ext a (XTask t lm k'))) with (a_gain_fn a).
  destruct (dim a) as [n|] eqn:En; [|discriminate]. cbn [bind] in *. destruct (opt ValueError (a_model a)) as [m'|]; [|discriminate]. cbn [bind] in *.
  destruct (vector_gain a) as [g|]; [|discriminate]. cbn [bind] in *.
  assert (F : forced (set_a_ext a (XTask t lm k')) = match forced a with Ok b => Ok (set_a_ext b (XTask t lm k')) | Err e => Err e end).
  { clear. destruct a as [nm mo ga gf di mk mi ex]. unfold forced, set_a_ext, get_default_mask, dim. cbn. destruct mk; [reflexivity|]. destruct (di =? -1)%Z; [reflexivity|]. cbn. destruct (zsize di); reflexivity. }
  rewrite F. destruct (forced a) as [b|] eqn:Eb; [|discriminate]. cbn [bind] in *. destruct (forced_other _ _ Eb) as (_ & _ & _ & _ & Db & Xb).
  unfold build_ext in *. rewrite Xb, E in Hj. cbn [a_ext set_a_ext]. unfold matrix_cost in *. change (a_dim (set_a_ext b (XTask t lm k'))) with (a_dim b). change (a_ext (set_a_ext b (XTask t lm k'))) with (XTask t lm k').
  rewrite Db, Ed in *. rewrite Xb, E in Hj. destruct (cost_matrix (a_dim a) t) as [W0|]; [|discriminate]. cbn [bind] in *. rewrite Hk. cbn [bind].
  destruct (match k with TCom _ => _ | _ => _ end) as [jk0|] eqn:Ek; [|discriminate]. cbn [bind] in *. injection Hj as <-. cbn in HW. injection HW as -> _. reflexivity.
Qed.
Lemma jax_pure_dim a j : jax_pure a = Ok j -> j_dim j = a_dim a /\ (a_dim a =? -1)%Z = false.
Proof.
  unfold jax_pure. destruct (a_model a); [|discriminate]. destruct (a_dim a =? -1)%Z eqn:E; [discriminate|]. unfold build_pure, dim. rewrite E. cbn [bind]. destruct (opt _ _); [|discriminate]. cbn [bind]. destruct (vector_gain a); [|discriminate]. cbn [bind].
  destruct (forced a); [|discriminate]. cbn [bind]. destruct (build_ext _); [|discriminate]. cbn [bind]. intros H. injection H as <-. auto.
Qed.
Lemma jax_pure_kind a j W lm jk : jax_pure a = Ok j -> j_ext j = JTask W lm jk -> exists t k, a_ext a = XTask t lm k /\
  (match k with TCom t => Ok (JTCom t) | TPos o t => Ok (JTPos (ob_id o) (ob_type o) t) | TFrame o t => Ok (JTFrame (ob_id o) (ob_type o) t)
   | TJoint j => do t <- opt ValueError (jt_target j); do q <- opt AttributeError (jt_qidx j); Ok (JTJoint t q) | TCustom f => Ok (JTCustom f) end) = Ok jk.
Proof.
  unfold jax_pure. destruct (a_model a); [|discriminate]. destruct (a_dim a =? -1)%Z; [discriminate|]. unfold build_pure. destruct (dim a); [|discriminate]. cbn [bind]. destruct (opt _ _); [|discriminate]. cbn [bind]. destruct (vector_gain a); [|discriminate]. cbn [bind].
  destruct (forced a) as [b|] eqn:Eb; [|discriminate]. cbn [bind]. destruct (forced_other _ _ Eb) as (_ & _ & _ & _ & _ & Xb). unfold build_ext. rewrite Xb. destruct (a_ext a) as [t lm' k|g k|ac h so k].
  - destruct (matrix_cost b); [|discriminate]. cbn [bind]. destruct (match k with TCom _ => _ | _ => _ end) eqn:Ek; [|discriminate]. cbn [bind]. intros H. injection H as <-. cbn. intros H. injection H as _ <- <-. eauto.
  - destruct (match k with BPos _ => _ | _ => _ end); [|discriminate]. cbn [bind]. intros H. injection H as <-. discriminate.
  - destruct (soft_constraint_cost b); [|discriminate]. cbn [bind]. intros H. injection H as <-. discriminate.
Qed.
Lemma last_dim_tvec t n : Z.of_nat (List.length t) = n -> last_dim_neq (tvec t) n = Ok false.
Proof. intros <-. unfold last_dim_neq, last_dim. cbn. now rewrite Z.eqb_refl. Qed.
Lemma retarget_call t o c j : reachable c -> fst (jax_component c) = Ok j -> aims t j o -> Z.of_nat (List.length t) = j_dim j ->
  fst (run_cop o c) = Ok tt /\ fst (jax_component (after o c)) = Ok (retarget t j).
Proof.
  intros Hr Hj Ha Hl. pose proof (reachable_after o c Hr) as Hr'. rewrite (jax_value _ (reachable_Inv _ Hr)) in Hj. rewrite (jax_value _ (reachable_Inv _ Hr')). destruct (jax_pure_dim _ _ Hj) as [Ed En]. pose proof (last_dim_tvec t (a_dim (c_at c)) ltac:(congruence)) as LD. unfold retarget.
  destruct Ha as [W lm t0 E|W lm i ty t0 E|W lm t0 q E]; rewrite E; destruct (jax_pure_kind _ _ _ _ _ Hj E) as (tc & k & X & K); destruct k as [tk|ob tk|ob tk|jt|f]; try discriminate K; try (destruct (opt ValueError (jt_target jt)); cbn in K; try discriminate; destruct (jt_qidx jt) eqn:Eq; discriminate).
  - assert (S : run_cop (OpTargetCom (tvec t)) c = seta (fun a => set_a_ext a (XTask tc lm (TCom (tvec t)))) c) by (unfold run_cop, update_target_com, mbind, read, lift; rewrite X; cbn [snd fst]; now rewrite LD).
    unfold after. rewrite S. unfold seta. cbn. split; [reflexivity|]. now apply retask_pure with (1 := X) (2 := Hj) (3 := E).
  - assert (S : run_cop (OpTargetPos (tvec t)) c = seta (fun a => set_a_ext a (XTask tc lm (TPos ob (tvec t)))) c) by (unfold run_cop, update_target_pos, mbind, read, lift; rewrite X; cbn [snd fst]; now rewrite LD).
    unfold after. rewrite S. unfold seta. cbn [fst snd c_at]. split; [reflexivity|]. injection K as <- <- _. now apply retask_pure with (1 := X) (2 := Hj) (3 := E).
  - destruct (opt ValueError (jt_target jt)); cbn [bind] in K; [|discriminate]. destruct (jt_qidx jt) as [qi|] eqn:Eq; cbn [bind opt] in K; [|discriminate]. injection K as _ <-.
    assert (S : run_cop (OpTargetQ (tvec t)) c = seta (fun a => set_a_ext a (XTask tc lm (TJoint (mkJT (jt_final jt) (Some (tvec t)) (jt_qidx jt))))) c) by (unfold run_cop, update_target_q, mbind, read, lift, ret; rewrite X; cbn [snd fst]; rewrite En; now rewrite LD).
    unfold after. rewrite S. unfold seta. cbn [fst snd c_at]. split; [reflexivity|]. apply retask_pure with (1 := X) (2 := Hj) (3 := E). cbn. now rewrite Eq.
Qed.
(** What a change of target does to the compiled problem. *)
Lemma retarget_compiled m os pi pd n ci j t o : tidy m os -> compiled_by os pi pd -> registered os pi n ci -> In (n, j) (jd_comps pd) -> aims t j o -> Z.of_nat (List.length t) = j_dim j ->
  exists l1 l2, jd_comps pd = l1 ++ (n, j) :: l2 /\ compiled_by (os ++ [WCop ci o]) pi (with_components pd (l1 ++ (n, retarget t j) :: l2)) /\ tidy m (os ++ [WCop ci o]).
Proof.
  intros Ht Hc Hg Hj Ha Hl. destruct (call_compiled os pi pd n ci j o (retarget t j)) as (l1 & l2 & E & C); auto.
  - apply Ht.
  - intros c _ Hr Hcj. now apply (retarget_call t o c j).
  - exists l1, l2. split; [exact E|]. split; [exact C|]. destruct Ha; (apply tidy_snoc; cbn; auto; unfold wf_tensor; cbn; lia).
Qed.

(** Distance of two velocities from the resistance of one component. *)
Lemma resist_apart L nv d j lam v w z x : resists L nv d j lam -> fits L nv d j -> cost_of L d j v x -> List.length v = nv -> List.length w = nv -> apart L d j v w z -> lam * sq (vsub v w) <= z.
Proof.
  intros Hr Hf Hc Lv Lw Ha. pose proof (fun u => dot_self_nonneg u : 0 <= sq u) as P. pose proof (P (vsub v w)) as P0.
  destruct Hr as [W lm k e E Pl Ee Le|g k J E EJ Le|W lm k J E Pl EJ Le]; inversion Ha as [W1 lm1 k1 J1 e1 E1 EJ1 Ee1|act1 W1 k1 J1 E1|g1 k1 J1 E1 EJ1|act1 W1 k1 E1]; subst; rewrite E in E1; try discriminate.
  - injection E1 as <- <- _. rewrite Ee in Ee1. injection Ee1 as <-. pose proof (P (vsub (mv W (mv J1 v)) (mv W (mv J1 w)))). apply Rmult_le_compat_r with (r := sq (vsub v w)) in Le; [lra|exact P0].
  - injection E1 as <- _. rewrite EJ in EJ1. injection EJ1 as <-. now apply Rmult_le_compat_r.
  - injection E1 as <- <- _. rewrite EJ in EJ1. injection EJ1 as <-. specialize (Le (vsub v w) ltac:(rewrite vsub_length; congruence)). rewrite mv_vsub in Le by congruence. rewrite mv_vsub in Le by (now rewrite !mv_length).
    assert (0 <= lm * sq (mv W (gained j e1)) * sq (vsub v w)); [|lra]. apply Rmult_le_pos; [apply Rmult_le_pos|]; auto.
Qed.
Lemma in_vsum L d j v w js : forall zs xs, Forall nonneg_weights js -> Forall2 (fun j x => cost_of L d j v x) js xs -> Forall2 (fun j z => apart L d j v w z) js zs -> In j js -> exists z x, cost_of L d j v x /\ apart L d j v w z /\ z <= vsum zs.
Proof.
  induction js as [|j0 js IH]; intros zs xs Hn Fx Fz Hi; [contradiction|]. inversion Fx as [|? x ? xs' X1 X2]; subst. inversion Fz as [|? z ? zs' Z1 Z2]; subst. inversion Hn as [|? ? N1 N2]; subst. cbn [vsum fold_right]. change (fold_right Rplus 0 ?l) with (vsum l).
  destruct Hi as [->|Hi].
  - exists z, x. split; [exact X1|]. split; [exact Z1|]. pose proof (apart_sum_nonneg L d _ _ _ _ _ N2 X2 Z2). lra.
  - destruct (IH zs' xs' N2 X2 Z2 Hi) as (z' & x' & A & B & C). exists z', x'. split; [exact A|]. split; [exact B|]. pose proof (apart_nonneg L d j0 v w z x N1 X1 Z1). lra.
Qed.
Section Still.
Context (L : lib) (d : mjdata).
Lemma move_distance pd l1 n j j' l2 y v v' jr lam : let pd' := with_components pd (l1 ++ (n, j') :: l2) in let nv := m_nv (jd_model pd) in jd_comps pd = l1 ++ (n, j) :: l2 -> shifted L d j j' y ->
  Forall (fits L nv d) (comps_of pd) -> Forall (fits L nv d) (comps_of pd') -> Forall nonneg_weights (map snd (l1 ++ l2)) -> best L d pd v -> best L d pd' v' ->
  In jr (map snd (l1 ++ l2)) -> 0 < lam -> resists L nv d jr lam -> sq (vsub v v') <= y / (4 * lam).
Proof.
  cbv zeta. intros E Hs Hf Hf' Hn B B' Hi Pl Hr. destruct (move_bound L d pd l1 n j j' l2 y v v' E Hs Hf Hf' Hn B B') as (x & zs & _ & Z & Le & _ & _).
  pose proof B as ((Lv & _) & c & Hc & _). pose proof B' as ((Lv' & _) & _). cbn [with_components jd_model] in Lv'.
  assert (X : exists xs, Forall2 (fun j x => cost_of L d j v x) (map snd (l1 ++ l2)) xs).
  { destruct Hc as (cs & Hc & _). unfold comps_of in Hc. rewrite E, map_app in Hc. cbn [map snd] in Hc. apply Forall2_app_inv_l in Hc as (c1 & c0 & C1 & C0 & ->). inversion C0; subst. rewrite map_app. eexists. eapply Forall2_app; eauto. }
  destruct X as (xs & X). destruct (in_vsum L d jr v v' _ zs xs Hn X Z Hi) as (z & x' & Cx & Az & Lz).
  assert (Fr : fits L (m_nv (jd_model pd)) d jr). { rewrite Forall_forall in Hf. apply Hf. unfold comps_of. rewrite E. rewrite map_app in *. cbn [map snd]. apply in_app_or in Hi. apply in_or_app. destruct Hi; [left|right; right]; assumption. }
  pose proof (resist_apart L _ d jr lam v v' z x' Hr Fr Cx Lv Lv' Az) as Q. apply Rmult_le_reg_l with (4 * lam); [lra|]. replace (4 * lam * (y / (4 * lam))) with y by (field; lra). lra.
Qed.
End Still.

(** How a task reacts to its target: its Jacobian does not. *)
Lemma retarget_shifted L m j q t0 t e W k : let d := update L m q in j_model j = m -> j_ext j = JTask W 0 k -> target_of j = Some t0 -> call L j d = Ok e -> List.length t0 = List.length e -> List.length t = List.length e ->
  fits L (m_nv m) d j -> (automatic j -> sound_jac (l_jacrev L) /\ smooth L j (List.length t0) q /\ kinematic L j /\ List.length q = m_nq m /\ d_qpos d = q) ->
  shifted L d j (retarget t j) (sq (mv W (vsub (gained j e) (gained j (vadd e (vsub t0 t)))))).
Proof.
  cbv zeta. intros Em Ex HT He L0 L1 Hf Ha. destruct Hf as (J & e' & EJ & _).
  assert (EJ' : jacobian L (retarget t j) (update L m q) = Ok J).
  { assert (D : automatic j \/ ~ automatic j). { unfold automatic. destruct (j_ext j) as [? ? []|? []|? ? ? []]; tauto. }
    destruct D as [A|A]; [|rewrite (retarget_jacobian_joint L t j _ A) by congruence; exact EJ]. destruct (Ha A) as (H1 & H2 & H3 & H4 & H5). subst m. apply (retarget_jacobian_auto L t t0 j q J); auto. congruence. }
  assert (Xr : exists k', j_ext (retarget t j) = JTask W 0 k').
  { unfold retarget. cbn [j_ext]. rewrite Ex. destruct k; eauto. }
  destruct Xr as (k' & Ex'). eapply shift with (1 := Ex) (2 := Ex') (3 := EJ) (4 := EJ') (5 := He) (6 := retarget_value L j t0 t _ e HT He L0 L1). reflexivity.
Qed.
Lemma retarget_accepted L d t j : target_of j <> None -> accepted L d j -> accepted L d (retarget t j).
Proof. unfold accepted, retarget, target_of. cbn [j_ext j_model]. destruct (j_ext j) as [W lm [T|i ty T|i ty T|T q|f]| |]; intros H; try (now contradiction H); cbn; intros A; unfold is_vec in *; try (split; [apply A|]); eexists; reflexivity. Qed.
Lemma names_distinct os pi pd : Forall legal os -> compiled_by os pi pd -> NoDup (map fst (jd_comps pd)).
Proof.
  intros Hl Hc. destruct (compiled_problem _ _ _ Hc) as (p & Pp). unfold compiled_by in Hc. fold (state os) in Hc. rewrite (compile_eq pi (state os) p (reach_always os Hl) Pp) in Hc.
  destruct (compile_pure (p_comps p) (w_comps (state os))) as [js|] eqn:Ej; [|discriminate]. cbn in Hc. injection Hc as <-. cbn [jd_comps]. rewrite (compile_names _ _ _ Ej). pose proof (contents os pi) as K. unfold problem_of in Pp. rewrite Pp in K. apply K.
Qed.
Lemma others_split n j pd l1 l2 : NoDup (map fst (jd_comps pd)) -> jd_comps pd = l1 ++ (n, j) :: l2 -> others n pd = map snd (l1 ++ l2).
Proof.
  intros Hd E. unfold others. rewrite E in *. rewrite filter_app. cbn [filter fst]. rewrite String.eqb_refl. cbn [negb]. rewrite map_app in Hd. cbn [map fst] in Hd. apply NoDup_remove_2 in Hd.
  assert (F : forall l, ~ In n (map fst l) -> filter (fun c : string * jaxc => negb (String.eqb (fst c) n)) l = l).
  { induction l as [|(a, b) l IH]; intros H; [reflexivity|]. cbn in *. destruct (String.eqb_spec a n) as [->|N]; [exfalso; auto|]. cbn. rewrite IH; auto. }
  rewrite !F; [reflexivity| |]; intros K; apply Hd; apply in_or_app; auto.
Qed.
Section Program.
Context (L : lib) (m : mjmodel) (os : list wop) (pi : nat) (pd : jdata) (n : string) (ci : nat) (j : jaxc) (q t0 t e : vec) (W : mat) (k : jtkind) (o : cop) (pd' : jdata) (v v' : vec).
Let d := update L m q.
Let y := sq (mv W (vsub (gained j e) (gained j (vadd e (vsub t0 t))))).
Context (Ht : tidy m os) (Hc : compiled_by os pi pd) (Hg : registered os pi n ci) (Hj : In (n, j) (jd_comps pd)) (Ex : j_ext j = JTask W 0 k) (HT : target_of j = Some t0) (He : call L j d = Ok e)
  (L0 : List.length t0 = List.length e) (L1 : List.length t = List.length e) (Ha : aims t j o) (HL : sound_lib L m) (Hd : wf_data m d) (Hacc : Forall (accepted L d) (comps_of pd))
  (Haut : automatic j -> sound_jac (l_jacrev L) /\ smooth L j (List.length t0) q /\ kinematic L j /\ List.length q = m_nq m /\ d_qpos d = q)
  (Hn : Forall nonneg_weights (others n pd)) (Hc' : compiled_by (os ++ [WCop ci o]) pi pd') (B : best L d pd v) (B' : best L d pd' v').
Lemma program_shift : exists l1 l2, others n pd = map snd (l1 ++ l2) /\ jd_comps pd = l1 ++ (n, j) :: l2 /\ pd' = with_components pd (l1 ++ (n, retarget t j) :: l2) /\ shifted L d j (retarget t j) y /\
  Forall (fits L (m_nv (jd_model pd)) d) (comps_of pd) /\ Forall (fits L (m_nv (jd_model pd)) d) (comps_of pd').
Proof.
  destruct (program_components m os pi pd Ht Hc) as (Em & _ & _ & F). destruct (program_fits L m os pi pd d Ht Hc HL Hd Hacc) as [Sf Ff].
  assert (Ij : In j (comps_of pd)) by (apply in_map_iff; exists (n, j); auto). assert (Mj : j_model j = m) by (rewrite Forall_forall in F; apply F; exact Ij).
  assert (Dj : Z.of_nat (List.length t) = j_dim j). { rewrite Forall_forall in Sf. destruct (Sf j Ij) as (n0 & e0 & J0 & D1 & D2 & D3 & _). rewrite He in D2. injection D2 as <-. rewrite D1, L1, D3. reflexivity. }
  destruct (retarget_compiled m os pi pd n ci j t o Ht Hc Hg Hj Ha Dj) as (l1 & l2 & E & C & T). unfold compiled_by in C, Hc'. rewrite C in Hc'. injection Hc' as <-. exists l1, l2.
  split; [apply others_split with (2 := E); apply (names_distinct os pi); [apply Ht|exact Hc]|]. split; [exact E|]. split; [reflexivity|]. rewrite Em. split.
  - apply (retarget_shifted L m j q t0 t e W k); auto. rewrite Forall_forall in Ff. now apply Ff.
  - split; [exact Ff|]. apply (program_fits L m _ pi _ d T C HL Hd). unfold comps_of in *. cbn [with_components jd_comps] in *. rewrite E in Hacc. rewrite map_app in *. cbn [map snd] in *. rewrite Forall_app, Forall_cons_iff in *. destruct Hacc as (A1 & A2 & A3). split; [exact A1|]. split; [|exact A3]. apply retarget_accepted; [congruence|exact A2].
Qed.
Lemma program_move : exists x zs, apart L d j v v' x /\ Forall2 (fun j z => apart L d j v v' z) (others n pd) zs /\ vsum zs <= y / 4 /\ x + 2 * vsum zs <= y.
Proof.
  destruct program_shift as (l1 & l2 & Eo & E & Ep & S & F & F'). rewrite Eo in *. subst pd'. destruct (move_bound L d pd l1 n j (retarget t j) l2 y v v' E S F F' Hn B B') as (x & zs & X). exists x, zs. tauto.
Qed.
Lemma program_near jr lam : In jr (others n pd) -> 0 < lam -> resists L (m_nv m) d jr lam -> sq (vsub v v') <= y / (4 * lam).
Proof.
  destruct program_shift as (l1 & l2 & Eo & E & Ep & S & F & F'). destruct (program_components m os pi pd Ht Hc) as (Em & _). rewrite Eo in *. subst pd'. rewrite <- Em. apply (move_distance L d pd l1 n j (retarget t j) l2 y v v' jr lam); auto.
Qed.
End Program.
(** Without a gain function the bound is the weighted, gained distance of the targets. *)
Lemma plain_shift j e t0 t W : (forall x, j_gain_fn j x = x) -> List.length (j_gain j) = List.length e -> List.length t0 = List.length e -> List.length t = List.length e ->
  sq (mv W (vsub (gained j e) (gained j (vadd e (vsub t0 t))))) = sq (mv W (vmul (j_gain j) (vsub t t0))).
Proof.
  intros Hf Hg H0 H1. f_equal. f_equal. unfold gained. rewrite !(map_ext _ (fun x => x) Hf), !map_id. clear Hf. revert e t0 t Hg H0 H1. induction (j_gain j) as [|g gs IH]; intros [|x e] [|a t0] [|b t] Hg H0 H1; try discriminate; [reflexivity|].
  injection Hg as Hg. injection H0 as H0. injection H1 as H1. unfold vsub, vadd, vmul, vmap2 in *. cbn. rewrite (IH e t0 t Hg H0 H1). f_equal. ring.
Qed.
Lemma near_targets L m os pi pd n ci j q t0 t e W k o pd' v v' jr lam : let d := update L m q in let y := sq (mv W (vsub (gained j e) (gained j (vadd e (vsub t0 t))))) in
  tidy m os -> compiled_by os pi pd -> registered os pi n ci -> In (n, j) (jd_comps pd) -> j_ext j = JTask W 0 k -> target_of j = Some t0 -> call L j d = Ok e -> List.length t0 = List.length e -> List.length t = List.length e ->
  aims t j o -> sound_lib L m -> wf_data m d -> Forall (accepted L d) (comps_of pd) ->
  (automatic j -> sound_jac (l_jacrev L) /\ smooth L j (List.length t0) q /\ kinematic L j /\ List.length q = m_nq m /\ d_qpos d = q) ->
  Forall nonneg_weights (others n pd) -> compiled_by (os ++ [WCop ci o]) pi pd' -> best L d pd v -> best L d pd' v' ->
  In jr (others n pd) -> 0 < lam -> resists L (m_nv m) d jr lam -> sq (vsub v v') <= y / (4 * lam).
Proof. cbv zeta. intros. eapply (program_near L m os pi pd n ci j q t0 t e W k o pd' v v'); eassumption. Qed.
