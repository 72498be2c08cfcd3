(** C120: a batched control loop is one jitted control loop per lane. *)
From Verif Require Import Base Lin LinFacts Mjx Typing Component Problem SpecComponent SpecProblem SpecQP Conf JaxComponents LocalIK SpecMotion JaxTree SpecJaxTree.
From Verif Require Import ComponentFacts ComponentFacts2 ProblemFacts ShareFacts JaxTreeFacts JaxTreeThms CompThms2 ProbThms SpecBatch BatchFacts BatchFacts2 BatchFacts3 BatchThms SpecLanes LanesFacts.
Open Scope nat_scope.
#[local] Arguments update_model : simpl never.
#[local] Arguments jax_component : simpl never.
#[local] Arguments run_cop : simpl never.
#[local] Arguments row : simpl never.
#[local] Arguments Nat.eqb : simpl never.

(** ** Samples along a template made earlier *)
Lemma sample_comp_of i F j0 j : (forall f, ~ In f eight -> F f = false) -> jkind (j_ext j0) = jkind (j_ext j) ->
  sample (slice i) (comp_template F (component_object j0)) (component_object j) = component_object (lane_j i F j).
Proof.
  intros HF HK. assert (N : forall f, existsb (String.eqb f) eight = false -> F f = false).
  { intros f Hf. apply HF. intros Hi. assert (existsb (String.eqb f) eight = true); [|congruence]. apply existsb_exists. exists f. split; [exact Hi|apply String.eqb_refl]. }
  pose proof (N "dim"%string eq_refl) as Ndim. pose proof (N "model"%string eq_refl) as Nmodel. pose proof (N "vector_gain"%string eq_refl) as Ngain.
  pose proof (N "gain_fn"%string eq_refl) as Nfn. pose proof (N "mask_idxs"%string eq_refl) as Nmask. pose proof (N "matrix_cost"%string eq_refl) as Ncost.
  pose proof (N "lm_damping"%string eq_refl) as Nlm. pose proof (N "obj_id"%string eq_refl) as Nid. pose proof (N "obj_type"%string eq_refl) as Nty.
  pose proof (N "qmask_idxs"%string eq_refl) as Nq. pose proof (N "function"%string eq_refl) as Nf. pose proof (N "safe_displacement_gain"%string eq_refl) as Ns.
  pose proof (N "limit_type_mask_idxs"%string eq_refl) as Nl. pose proof (N "d_min_vec"%string eq_refl) as Nd. pose proof (N "collision_pairs"%string eq_refl) as Np.
  pose proof (N "n_closest_pairs"%string eq_refl) as Nn. pose proof (N "active"%string eq_refl) as Na. pose proof (N "hard_constraint"%string eq_refl) as Nh.
  pose proof (N "soft_constraint_cost"%string eq_refl) as Nw. clear N HF.
  unfold component_object, lane_j. cbn [j_ext j_dim j_model j_gain j_gain_fn j_mask_idxs].
  destruct (j_ext j0) as [W0 lm0 [t0|o0 y0 t0|o0 y0 t0|t0 q0|f0]|s0 [o0 y0 lo0 hi0 li0|lo0 hi0 q0|dv0 ps0 n0|f0]|a0 h0 W0 [|f0]];
  destruct (j_ext j) as [W lm [t|o y t|o y t|t q|f]|s [o y lo hi li|lo hi q|dv ps n|f]|a h W [|f]]; try discriminate HK; clear HK; cbn;
    repeat match goal with H : F ?x = false |- _ => rewrite !H end; cbn; unfold pick;
    repeat match goal with |- context [F ?x] => destruct (F x) end; reflexivity.
Qed.
Lemma sample_data_of i G pd0 pd es : NoDup (map fst (jd_comps pd0)) -> (forall n f, ~ In f eight -> G n f = false) ->
  (forall n j, In (n, j) es -> exists j0, In (n, j0) (jd_comps pd0) /\ jkind (j_ext j0) = jkind (j_ext j)) ->
  sample (slice i) (data_template G pd0) (data_object (mkJD (jd_model pd) (jd_vmin pd) (jd_vmax pd) es))
  = data_object (mkJD (jd_model pd) (jd_vmin pd) (jd_vmax pd) (map (fun e => (fst e, lane_j i (G (fst e)) (snd e))) es)).
Proof.
  intros Hn HG He. unfold data_template, data_object, dyn. cbn [jd_model jd_vmin jd_vmax jd_comps sample map fst snd assoc String.eqb Ascii.eqb Bool.eqb].
  apply (f_equal (fun l => PObj _ (_ :: _ :: _ :: [(_, (_, PDict l))]))). rewrite !map_map. cbn [fst snd]. apply map_ext_in. intros (n, j) Hi. cbn [fst snd]. f_equal.
  destruct (He n j Hi) as (j0 & H0 & HK).
  rewrite (assoc_map_names (entry_template G)) by reflexivity. rewrite assoc_ssort, (assoc_In n j0) by auto. cbn [option_map entry_template snd fst].
  apply sample_comp_of; [|exact HK]. intros f Hf. now apply HG.
Qed.

(** ** Which places are marked *)
Lemma marked_iff ks : forall G n f, marked ks G n f = true <-> G n f = true \/ In ["components"; n; f]%string (map place ks).
Proof.
  induction ks as [|k ks IH]; intros G n f; cbn [marked fold_left map]; [cbn; tauto|].
  change (fold_left (fun G k => mark G (snd (fst k)) (field_of (snd k))) ks (mark G (snd (fst k)) (field_of (snd k)))) with (marked ks (mark G (snd (fst k)) (field_of (snd k)))).
  rewrite IH. unfold mark. split.
  - intros [H|H]; [|right; now right]. destruct (String.eqb_spec (snd (fst k)) n) as [E|E]; [|now left]. unfold also in H. apply orb_prop in H as [H|H]; [now left|].
    apply String.eqb_eq in H. right. left. unfold place. now rewrite E, H.
  - intros [H|[H|H]]; [left|left|now right].
    + destruct (String.eqb_spec (snd (fst k)) n) as [E|E]; [|exact H]. unfold also. now rewrite H.
    + unfold place in H. injection H as -> ->. rewrite String.eqb_refl. unfold also. now rewrite String.eqb_refl, orb_true_r.
Qed.
Lemma template_ext G G' pd : (forall n f, G n f = G' n f) -> data_template G pd = data_template G' pd.
Proof.
  intros H. unfold data_template. apply (f_equal (fun l => PObj _ (_ :: _ :: _ :: [dyn _ (PDict l)]))). apply map_ext. intros (n, j). unfold entry_template. cbn. f_equal.
  unfold comp_template. destruct (component_object j); try reflexivity. f_equal. apply map_ext. intros (f, (b, v)). unfold field_template. cbn. now rewrite H.
Qed.

Lemma bool_iff (a b : bool) : (a = true <-> b = true) -> a = b.
Proof. destruct a, b; intuition congruence. Qed.
Lemma axes_places pd ks places : NoDup (map fst (jd_comps pd)) -> (forall p, In p (map place ks) <-> In p places) ->
  (forall k, In k ks -> exists j, In (snd (fst k), j) (jd_comps pd) /\ has_field (component_object j) (field_of (snd k))) ->
  set_axes places (data_template (fun _ _ => false) pd) = Ok (data_template (marked ks (fun _ _ => false)) pd).
Proof.
  intros Hn Hp Hk.
  assert (H : forall ps G, (forall p, In p ps -> In p places) -> exists G', set_axes ps (data_template G pd) = Ok (data_template G' pd) /\
     forall n f, G' n f = true <-> G n f = true \/ In ["components"; n; f]%string ps).
  { induction ps as [|p ps IH]; intros G Hi; [exists G; split; [reflexivity|cbn; tauto]|].
    assert (Hin : In p (map place ks)) by (apply Hp, Hi; now left). apply in_map_iff in Hin as (k & <- & Hin). destruct (Hk k Hin) as (j & Hj & Hf).
    cbn [set_axes]. change (place k) with ["components"%string; snd (fst k); field_of (snd k)]. rewrite (assign_data G pd _ j _ Hn Hj Hf). cbn [bind].
    destruct (IH (mark G (snd (fst k)) (field_of (snd k)))) as (G' & A & B); [intros p' H'; apply Hi; now right|]. exists G'. split; [exact A|].
    intros n f. rewrite B. unfold mark. split.
    - intros [H|H]; [|right; now right]. destruct (String.eqb_spec (snd (fst k)) n) as [E|E]; [|now left]. unfold also in H. apply orb_prop in H as [H|H]; [now left|].
      apply String.eqb_eq in H. right. left. now rewrite E, H.
    - intros [H|[H|H]]; [left|left|now right].
      + destruct (String.eqb_spec (snd (fst k)) n) as [E|E]; [|exact H]. unfold also. now rewrite H.
      + injection H as -> ->. rewrite String.eqb_refl. unfold also. now rewrite String.eqb_refl, orb_true_r. }
  destruct (H places (fun _ _ => false) (fun p h => h)) as (G' & A & B). rewrite A. f_equal. apply template_ext. intros n f. apply bool_iff. rewrite B, marked_iff.
  now rewrite Hp.
Qed.

(** ** Kinds of components stay *)
Lemma batch_kind N pi ks : forall w, batch N pi ks w -> forall ci c, nth_error (w_comps w) ci = Some c ->
  exists c', nth_error (w_comps (run (map as_step ks) w)) ci = Some c' /\ xkind (a_ext (c_at c')) = xkind (a_ext (c_at c)).
Proof.
  induction ks as [|((ci, n), o) ks IH]; intros w H cj c Hc; [exists c; now split|]. destruct H as (Hl & Hb & Hs & Ho & Hr).
  change (run (map as_step ((ci, n, o) :: ks)) w) with (run (map as_step ks) (snd (step (WCop ci o) w))). specialize (IH _ Hr). clear Hr.
  cbn [step] in Ho, IH |- *. destruct (nth_error (w_comps w) ci) as [c0|] eqn:E0; [|discriminate].
  destruct (run_cop o c0) as [r c1] eqn:R. assert (r = Ok tt). { destruct r as [[]|]; [reflexivity|discriminate]. } subst r. cbn [snd set_comp w_comps] in IH |- *.
  destruct Hb as (t & s & Ht & _ & Hsh & Hne). destruct (row_dims 0 N t s Hsh Hne) as [_ D2]. destruct (call_kind o t c0 Ht D2) as [X _]; [now rewrite R|].
  rewrite R in X. cbn [snd] in X. destruct (Nat.eq_dec ci cj) as [<-|E].
  - assert (c = c0) by congruence. subst c. destruct (IH ci c1) as (c' & A & B); [eapply nth_replace_same; eauto|]. exists c'. split; [exact A|congruence].
  - apply IH. cbn. now rewrite nth_replace_other.
Qed.
Lemma compile_kind pi w : Forall reachable (w_comps w) -> forall ci c, nth_error (w_comps w) ci = Some c ->
  exists c', nth_error (w_comps (snd (step (WCompile pi) w))) ci = Some c' /\ a_ext (c_at c') = a_ext (c_at c).
Proof.
  intros Hr ci c Hc. cbn [step]. unfold compile. destruct (nth_error (w_probs w) pi) as [p|]; [|now exists c].
  assert (H : forall l cs, Forall reachable cs -> forall ci c, nth_error cs ci = Some c -> exists c', nth_error (snd (compile_all l cs)) ci = Some c' /\ a_ext (c_at c') = a_ext (c_at c)).
  { clear. induction l as [|(n, k) l IH]; intros cs Hr ci c Hc; cbn; [now exists c|]. destruct (nth_error cs k) as [d|] eqn:E; [|now exists c].
    assert (Hd : reachable d) by (rewrite Forall_forall in Hr; apply Hr; eapply nth_error_In; eauto).
    pose proof (jax_state d (reachable_Inv _ Hd)) as (_ & X & _). pose proof (reachable_jax d Hd) as Rd. destruct (jax_component d) as [r d']. cbn [snd] in X, Rd.
    assert (Xe : a_ext (c_at d') = a_ext (c_at d)). { destruct X as [->|F]; [reflexivity|]. now destruct (forced_other _ _ F) as (_ & _ & _ & _ & _ & ?). }
    assert (Q : exists c', nth_error (replace_nth k d' cs) ci = Some c' /\ a_ext (c_at c') = a_ext (c_at c)).
    { destruct (Nat.eq_dec k ci) as [<-|Hne]; [exists d'; split; [eapply nth_replace_same; eauto|congruence]|]. rewrite nth_replace_other by exact Hne. now exists c. }
    destruct r as [j|e]; [|exact Q]. destruct Q as (c1 & Q1 & Q2). destruct (IH (replace_nth k d' cs) (Forall_replace _ _ _ _ Rd Hr) ci c1 Q1) as (c2 & A & B).
    exists c2. destruct (compile_all l (replace_nth k d' cs)) as [[js|e] cs']; cbn [snd] in *; (split; [exact A|congruence]). }
  destruct (H (p_comps p) (w_comps w) Hr ci c Hc) as (c' & A & B). exists c'. destruct (compile_all (p_comps p) (w_comps w)) as [[js|e] cs']; cbn [snd] in *; now split.
Qed.

(** ** One turn *)
Definition tidy (p : prob) (w : world) : Prop :=
  Forall reachable (w_comps w) /\ nth_error (w_probs w) 0 = Some p /\ (forall n i, In (n, i) (p_comps p) -> i < List.length (w_comps w)) /\ NoDup (map fst (p_comps p)).
(** The template [pd0] was made from components of the same kinds. *)
Definition kinds (p : prob) (pd0 : jdata) (w : world) : Prop :=
  forall n ci c, In (n, ci) (p_comps p) -> nth_error (w_comps w) ci = Some c -> exists j0, In (n, j0) (jd_comps pd0) /\ jkind (j_ext j0) = xkind (a_ext (c_at c)).

Lemma steps_tidy p w ks : tidy p w -> (forall k, In k ks -> exists ci o, k = WCop ci o) -> tidy p (run ks w).
Proof.
  revert w. induction ks as [|k ks IH]; intros w H Hk; [exact H|]. change (run (k :: ks) w) with (run ks (snd (step k w))). apply IH; [|intros k' H'; apply Hk; now right].
  destruct (Hk k (or_introl eq_refl)) as (ci & o & ->). destruct H as (H1 & H2 & H3 & H4). destruct (cop_world ci o w) as [W1 W2].
  split; [apply step_reach; [exact I|exact H1]|]. rewrite W1, W2. auto.
Qed.
Lemma compile_tidy p w : tidy p w -> tidy p (snd (step (WCompile 0) w)).
Proof.
  intros (H1 & H2 & H3 & H4). split; [apply step_reach; [exact I|exact H1]|]. change (step (WCompile 0) w) with (compile 0 w). rewrite compile_probs. split; [exact H2|]. split; [|exact H4].
  intros n i Hi. specialize (H3 n i Hi). destruct (nth_error (w_comps w) i) as [c|] eqn:E; [|apply nth_error_None in E; lia].
  destruct (compile_kind 0 w H1 i c E) as (c' & A & _). apply nth_error_Some. cbn [step] in A. congruence.
Qed.

Lemma one_turn i N ks p pd0 w1 w2 F G pd : tidy p w1 -> tidy p w2 -> kinds p pd0 w1 -> NoDup (map fst (jd_comps pd0)) -> in_step i F w1 w2 ->
  (forall n ci f, In (n, ci) (p_comps p) -> F ci f = G n f) -> (forall n f, ~ In f eight -> G n f = false) ->
  batch N 0 ks w1 -> fst (step (WCompile 0) (run (map as_step ks) w1)) = Ok (OData pd) ->
  let u1 := snd (step (WCompile 0) (run (map as_step ks) w1)) in let u2 := snd (step (WCompile 0) (run (map (as_row i) ks) w2)) in
  tidy p u1 /\ tidy p u2 /\ kinds p pd0 u1 /\ in_step i (marks ks F) u1 u2 /\
  (forall n ci f, In (n, ci) (p_comps p) -> marks ks F ci f = marked ks G n f) /\ (forall n f, ~ In f eight -> marked ks G n f = false) /\
  exists pd', fst (step (WCompile 0) (run (map (as_row i) ks) w2)) = Ok (OData pd') /\
    sample (slice i) (data_template (marked ks G) pd0) (data_object (under_jit pd)) = data_object (under_jit pd').
Proof.
  intros T1 T2 K Hn0 S HF HG Hb Hc. set (v1 := run (map as_step ks) w1) in *. set (v2 := run (map (as_row i) ks) w2) in *. cbn zeta.
  assert (V1 : tidy p v1) by (apply steps_tidy; [exact T1|]; intros k Hk; apply in_map_iff in Hk as (k' & <- & _); unfold as_step; eauto).
  assert (V2 : tidy p v2) by (apply steps_tidy; [exact T2|]; intros k Hk; apply in_map_iff in Hk as (k' & <- & _); unfold as_row; eauto).
  pose proof (run_in_step i N 0 ks w1 w2 F S Hb) as Sv. fold v1 v2 in Sv.
  destruct V1 as (R1 & P1 & I1 & ND). destruct V2 as (R2 & P2 & I2 & _).
  assert (Kv : kinds p pd0 v1).
  { intros n ci c Hi H. destruct T1 as (_ & _ & J & _). specialize (J n ci Hi). destruct (nth_error (w_comps w1) ci) as [c0|] eqn:E; [|apply nth_error_None in E; lia].
    destruct (batch_kind N 0 ks w1 Hb ci c0 E) as (c' & A & B). fold v1 in A. assert (c' = c) by congruence. subst c'. rewrite B. now apply (K n ci). }
  assert (MA : forall n ci f, In (n, ci) (p_comps p) -> marks ks F ci f = marked ks G n f).
  { destruct T1 as (_ & Q & J & _). eapply (marks_agree N 0 ks p ND w1); eauto. }
  assert (M8 : forall n f, ~ In f eight -> marked ks G n f = false) by (eapply marked_eight; eauto).
  split; [apply compile_tidy; repeat split; assumption|]. split; [apply compile_tidy; repeat split; assumption|]. split.
  { intros n ci c Hi H. specialize (I1 n ci Hi). destruct (nth_error (w_comps v1) ci) as [c0|] eqn:E; [|apply nth_error_None in E; lia].
    destruct (compile_kind 0 v1 R1 ci c0 E) as (c' & A & B). assert (c' = c) by congruence. subst c'. rewrite B. now apply (Kv n ci). }
  split; [eapply compile_in_step; eauto|]. split; [exact MA|]. split; [exact M8|].
  rewrite (compile_eq 0 v1 p R1 P1) in Hc. destruct (compile_pure (p_comps p) (w_comps v1)) as [js|] eqn:Ec; [|discriminate]. cbn in Hc. injection Hc as <-.
  destruct Sv as ((L1 & L2 & L3) & _).
  set (js' := map (fun e => (fst e, lane_j i (marked ks G (fst e)) (snd e))) js).
  assert (Ec' : compile_pure (p_comps p) (w_comps v2) = Ok js') by (unfold js'; eapply compile_lanes; [exact R1|exact R2|exact L2|exact L3|exact MA|exact Ec]).
  exists (mkJD (p_model p) (p_vmin p) (p_vmax p) js'). rewrite (compile_eq 0 v2 p R2 P2), Ec'. split; [reflexivity|].
  unfold under_jit. cbn [jd_model jd_vmin jd_vmax jd_comps]. unfold js'. rewrite (ssort_map (fun e => (fst e, lane_j i (marked ks G (fst e)) (snd e))) js) by reflexivity.
  apply (sample_data_of i (marked ks G) pd0 (mkJD (p_model p) (p_vmin p) (p_vmax p) (ssort js)) (ssort js) Hn0 M8).
  intros n j Hj. apply (Permutation_in _ (perm_ssort js)) in Hj. destruct (compile_pure_entry _ _ _ _ _ Ec Hj) as (ci & c & A & B & D).
  rewrite (jax_value _ (reachable_Inv _ (proj1 (Forall_forall _ _) R1 c (nth_error_In _ _ B)))) in D. destruct (Kv n ci c A B) as (j0 & X & Y).
  exists j0. split; [exact X|]. now rewrite Y, (jax_kind _ _ D).
Qed.
