(** C120: the worlds of a batched loop and of its lanes, turn after turn. *)
From Verif Require Import Base Lin LinFacts Mjx Typing Component Problem SpecComponent SpecProblem SpecQP Conf JaxComponents LocalIK SpecMotion JaxTree SpecJaxTree.
From Verif Require Import ComponentFacts ComponentFacts2 ProblemFacts ShareFacts JaxTreeFacts JaxTreeThms CompThms2 ProbThms SpecBatch BatchFacts BatchFacts2 BatchFacts3 BatchThms SpecLanes.
Open Scope nat_scope.
#[local] Arguments update_model : simpl never.
#[local] Arguments row : simpl never.
#[local] Arguments Nat.eqb : simpl never.

(** ** What a call leaves alone, and that it leaves a mark *)
Definition xkind (e : ext) : nat :=
  match e with
  | XTask _ _ (TCom _) => 0 | XTask _ _ (TPos _ _) => 1 | XTask _ _ (TFrame _ _) => 2 | XTask _ _ (TJoint _) => 3 | XTask _ _ (TCustom _) => 4
  | XBarrier _ (BPos _) => 5 | XBarrier _ (BJoint _) => 6 | XBarrier _ (BSelf _) => 7 | XBarrier _ (BCustom _) => 8
  | XConstraint _ _ _ CModelEq => 9 | XConstraint _ _ _ _ => 10
  end.
Definition jkind (e : jext) : nat :=
  match e with
  | JTask _ _ (JTCom _) => 0 | JTask _ _ (JTPos _ _ _) => 1 | JTask _ _ (JTFrame _ _ _) => 2 | JTask _ _ (JTJoint _ _) => 3 | JTask _ _ (JTCustom _) => 4
  | JBarrier _ (JBPos _ _ _ _ _) => 5 | JBarrier _ (JBJoint _ _ _) => 6 | JBarrier _ (JBSelf _ _ _) => 7 | JBarrier _ (JBCustom _) => 8
  | JConstraint _ _ _ JCModelEq => 9 | JConstraint _ _ _ _ => 10
  end.
Lemma call_kind o t c : array_of o = Some t -> ndim t <> 0 -> fst (run_cop o c) = Ok tt ->
  xkind (a_ext (c_at (snd (run_cop o c)))) = xkind (a_ext (c_at c)) /\ (stored o c -> c_modified (snd (run_cop o c)) = true).
Proof.
  intros Ha Hd Ho. assert (R2 : Nat.eqb (ndim t) 0 = false) by now apply Nat.eqb_neq. unfold stored.
  destruct o as [| | |t0|t0|[t0|t0]|t0|t0|t0|t0|t0| | | |]; try discriminate; injection Ha as ->; cbn [run_cop] in *.
  - unfold update_target_com, mbind, read, lift, raise, seta in *. cbn in Ho |- *.
    destruct (a_ext (c_at c)) as [co l [tt0|ob tt0|ob tt0|[fm tg q]|f]|sd k|? ? ? ?] eqn:E; try discriminate. cbn in *.
    destruct (last_dim_neq t _) as [[|]|]; try discriminate. now split.
  - unfold update_target_pos, mbind, read, lift, raise, seta in *. cbn in Ho |- *.
    destruct (a_ext (c_at c)) as [co l [tt0|ob tt0|ob tt0|[fm tg q]|f]|sd k|? ? ? ?] eqn:E; try discriminate. cbn in *.
    destruct (last_dim_neq t _) as [[|]|]; try discriminate. now split.
  - unfold update_target_frame, mbind, read, lift, raise, seta in *. cbn in Ho |- *.
    destruct (a_ext (c_at c)) as [co l [tt0|ob tt0|ob tt0|[fm tg q]|f]|sd k|? ? ? ?] eqn:E; try discriminate. cbn in *. now split.
  - unfold update_target_frame, mbind, read, lift, raise, seta in *. cbn in Ho |- *.
    destruct (a_ext (c_at c)) as [co l [tt0|ob tt0|ob tt0|[fm tg q]|f]|sd k|? ? ? ?] eqn:E; try discriminate. cbn in *.
    destruct (last_dim_neq t _) as [[|]|]; try discriminate. now split.
  - unfold update_target_q, mbind, read, lift, raise, seta, ret in *. cbn in Ho |- *.
    destruct (a_ext (c_at c)) as [co l [tt0|ob tt0|ob tt0|[fm tg q]|f]|sd k|? ? ? ?] eqn:E; try discriminate. cbn in *.
    destruct (a_dim (c_at c) =? -1)%Z; [|destruct (last_dim_neq t _) as [[|]|]; try discriminate]; now split.
  - unfold update_p_min, mbind, read, lift, raise, seta, ret in *. cbn in Ho |- *. rewrite R2 in Ho |- *.
    destruct (a_ext (c_at c)) as [co l k|sd [[ob lt li lo hi]|k|k|k]|? ? ? ?] eqn:E; try discriminate. cbn -[mask_idxs] in *.
    pose proof (mask_idxs_fst c) as A1. pose proof (mask_idxs_snd c) as A2. destruct (mask_idxs c) as [r1 c1']. cbn in A1, A2.
    destruct (forced (c_at c)) as [a'|] eqn:Fo; cbn in A1, A2; subst r1; cbn in Ho |- *; [|discriminate].
    destruct (last_dim_neq t _) as [[|]|]; cbn in Ho |- *; try discriminate. destruct (includes_min lt); cbn; (split; [|try reflexivity; discriminate]); [reflexivity|].
    destruct (forced_other _ _ Fo) as (_ & _ & _ & _ & _ & Ee). rewrite A2, Ee, E. reflexivity.
  - unfold update_p_max, mbind, read, lift, raise, seta, ret in *. cbn in Ho |- *. rewrite R2 in Ho |- *.
    destruct (a_ext (c_at c)) as [co l k|sd [[ob lt li lo hi]|k|k|k]|? ? ? ?] eqn:E; try discriminate. cbn -[mask_idxs] in *.
    pose proof (mask_idxs_fst c) as A1. pose proof (mask_idxs_snd c) as A2. destruct (mask_idxs c) as [r1 c1']. cbn in A1, A2.
    destruct (forced (c_at c)) as [a'|] eqn:Fo; cbn in A1, A2; subst r1; cbn in Ho |- *; [|discriminate].
    destruct (last_dim_neq t _) as [[|]|]; cbn in Ho |- *; try discriminate. destruct (includes_max lt); cbn; (split; [|try reflexivity; discriminate]); [reflexivity|].
    destruct (forced_other _ _ Fo) as (_ & _ & _ & _ & _ & Ee). rewrite A2, Ee, E. reflexivity.
  - unfold update_q_min, mbind, read, lift, raise, seta, dim in *. cbn in Ho |- *.
    destruct (a_ext (c_at c)) as [co l k|sd [k|[fm lo hi q]|k|k]|? ? ? ?] eqn:E; try discriminate. cbn in *.
    destruct (last_dim t); try discriminate. destruct (a_dim (c_at c) =? -1)%Z; try discriminate. destruct (negb _); try discriminate. now split.
  - unfold update_q_max, mbind, read, lift, raise, seta, dim in *. cbn in Ho |- *.
    destruct (a_ext (c_at c)) as [co l k|sd [k|[fm lo hi q]|k|k]|? ? ? ?] eqn:E; try discriminate. cbn in *.
    destruct (last_dim t); try discriminate. destruct (a_dim (c_at c) =? -1)%Z; try discriminate. destruct (negb _); try discriminate. now split.
Qed.
Lemma jax_kind a j : jax_pure a = Ok j -> jkind (j_ext j) = xkind (a_ext a).
Proof.
  intros H. unfold jax_pure in H. destruct (a_model a); [|discriminate]. destruct (a_dim a =? -1)%Z eqn:Ed; [discriminate|].
  unfold build_pure in H. destruct (dim a); cbn in H; [|discriminate]. destruct (opt ValueError (a_model a)); cbn in H; [|discriminate].
  destruct (vector_gain a); cbn in H; [|discriminate]. destruct (forced a) as [a'|] eqn:Fo; cbn in H; [|discriminate].
  rewrite (build_ext_forced _ _ Fo) in H. destruct (build_ext a) as [e|] eqn:B; cbn in H; [|discriminate]. injection H as <-. cbn [j_ext].
  apply build_ext_published in B; [|now apply Z.eqb_neq].
  inversion B as [? ? ? ? E|? ? ? ? ? E|? ? ? ? ? E|? ? ? ? ? ? E|? ? ? ? E|? ? ? ? ? ? E|? ? ? ? ? E|? ? ? ? ? ? ? E|? ? E|? ? ? ? E|? ? ? ? ? E]; subst; rewrite E; reflexivity.
Qed.
#[local] Arguments build_component : simpl never.
Lemma jax_exact c j : Inv c -> fst (jax_component c) = Ok j ->
  c_modified (snd (jax_component c)) = false /\ (c_modified c = false -> snd (jax_component c) = c) /\
  (c_modified c = true -> forced (c_at c) = Ok (c_at (snd (jax_component c)))).
Proof.
  intros HI Hj. pose proof (jax_state c HI) as (_ & _ & H & _). split; [apply H; now rewrite Hj|]. clear H. revert Hj.
  unfold jax_component, mbind, read, raise. cbn.
  destruct (a_model (c_at c)) eqn:Em; cbn; [|discriminate]. destruct (a_dim (c_at c) =? -1)%Z eqn:Ed; cbn; [discriminate|].
  destruct (c_modified c) eqn:Hm.
  - destruct (build_eq c) as (H1 & H2 & _). destruct (build_component c) as [[j'|e] c'] eqn:B; cbn in *; [|intros; discriminate].
    intros _. split; [intros; discriminate|]. intros _. exact (H2 j' (eq_sym H1)).
  - destruct (c_cache c); [|intros; discriminate]. intros _. split; [reflexivity|intros; discriminate].
Qed.

(** ** Worlds in step *)
Definition in_step (i : nat) (F : nat -> string -> bool) (w1 w2 : world) : Prop :=
  lanes i F w1 w2 /\ forall ci c1 c2, nth_error (w_comps w1) ci = Some c1 -> nth_error (w_comps w2) ci = Some c2 -> c_modified c2 = c_modified c1.
Lemma in_step_refl i w : in_step i (fun _ _ => false) w w.
Proof. split; [apply lanes_refl|]. intros. congruence. Qed.

#[local] Arguments jax_component : simpl never.
#[local] Arguments run_cop : simpl never.
Lemma nth_same_length {A B} (l1 : list A) (l2 : list B) k a : List.length l2 = List.length l1 -> nth_error l1 k = Some a -> exists b, nth_error l2 k = Some b.
Proof. intros Hl H. destruct (nth_error l2 k) eqn:E; [eauto|]. apply nth_error_None in E. assert (k < List.length l1) by (apply nth_error_Some; congruence). lia. Qed.

Lemma row_dims i N t s : t_shape t = N :: s -> s <> [] -> ndim (row i t) <> 0 /\ ndim t <> 0.
Proof. intros H Hs. unfold ndim, row. cbn. rewrite H. cbn. destruct s; [congruence|]. cbn. split; discriminate. Qed.
Lemma with_row_array i o t : array_of o = Some t -> exists t', array_of (with_row i o) = Some t' /\ t' = row i t.
Proof. destruct o as [| | |t0|t0|[t0|t0]|t0|t0|t0|t0|t0| | | |]; try discriminate; intros H; injection H as ->; cbn; eauto. Qed.

Lemma run_in_step i N pi ks : forall w1 w2 F, in_step i F w1 w2 -> batch N pi ks w1 ->
  in_step i (marks ks F) (run (map as_step ks) w1) (run (map (as_row i) ks) w2).
Proof.
  induction ks as [|((ci, n), o) ks IH]; intros w1 w2 F L H; [exact L|]. destruct H as (Hn & Hb & Hs & Ho & Hr).
  change (run (map as_step ((ci, n, o) :: ks)) w1) with (run (map as_step ks) (snd (step (WCop ci o) w1))).
  change (run (map (as_row i) ((ci, n, o) :: ks)) w2) with (run (map (as_row i) ks) (snd (step (WCop ci (with_row i o)) w2))).
  cbn [marks fold_left fst snd]. apply IH; [|exact Hr]. clear IH Hr. destruct L as [L M].
  assert (L' : lanes i (marks [(ci, n, o)] F) (run (map as_step [(ci, n, o)]) w1) (run (map (as_row i) [(ci, n, o)]) w2)).
  { apply (run_lanes i N pi); [exact L|]. cbn [batch]. auto. }
  split; [exact L'|]. destruct L as (L1 & L2 & L3). intros cj d1 d2 H1 H2. cbn [step] in Ho, H1, H2.
  destruct (nth_error (w_comps w1) ci) as [c1|] eqn:E1; [|discriminate].
  destruct (nth_same_length _ (w_comps w2) ci c1 L2 E1) as [c2 E2]. rewrite E2 in H2.
  destruct (run_cop o c1) as [r1 c1'] eqn:R1. assert (Hr1 : r1 = Ok tt). { destruct r1 as [[]|]; [reflexivity|discriminate]. } subst r1.
  destruct (call_row i N o (F ci) c1 c2 Hb (Hs c1 eq_refl)) as [A B]; [now rewrite R1|now apply L3|]. rewrite R1 in B. cbn [snd] in B.
  destruct (run_cop (with_row i o) c2) as [r2 c2'] eqn:R2. cbn [fst snd set_comp w_comps] in A, B, H1, H2. subst r2.
  destruct (Nat.eqb_spec ci cj) as [<-|Hne].
  - rewrite (nth_replace_same _ _ _ _ E1) in H1. rewrite (nth_replace_same _ _ _ _ E2) in H2. injection H1 as <-. injection H2 as <-.
    destruct Hb as (t & s & Ht & _ & Hsh & Hne). destruct (row_dims i N t s Hsh Hne) as [D1 D2]. destruct (with_row_array i o t Ht) as (t' & Ht' & Et'). subst t'.
    destruct (call_kind o t c1 Ht D2) as [_ X1]; [now rewrite R1|]. destruct (call_kind _ _ c2 Ht' D1) as [_ X2]; [now rewrite R2|].
    rewrite R1 in X1. rewrite R2 in X2. cbn [snd] in X1, X2. rewrite X1 by now apply Hs. rewrite X2; [reflexivity|].
    specialize (Hs c1 eq_refl). specialize (L3 ci c1 c2 E1 E2). unfold stored in *. rewrite L3. cbn [a_ext lane_attrs set_a_ext].
    destruct (a_ext (c_at c1)) as [co l [tt0|ob tt0|ob tt0|[fm tg q]|f]|sd [[ob lt li lo hi]|[]|k|k]|? ? ? ?]; cbn [lane_ext]; try exact I.
    cbn [pb_lt] in *. destruct o as [| | |t0|t0|[t0|t0]|t0|t0|t0|t0|t0| | | |]; exact Hs.
  - rewrite nth_replace_other in H1 by exact Hne. rewrite nth_replace_other in H2 by exact Hne. now apply (M cj).
Qed.

(** ** Compilation in step *)
Lemma compile_all_step i F l : forall cs1 cs2, Forall reachable cs1 -> Forall reachable cs2 -> List.length cs2 = List.length cs1 ->
  (forall ci c1 c2, nth_error cs1 ci = Some c1 -> nth_error cs2 ci = Some c2 -> c_at c2 = lane_attrs i (F ci) (c_at c1) /\ c_modified c2 = c_modified c1) ->
  forall js, fst (compile_all l cs1) = Ok js ->
  List.length (snd (compile_all l cs2)) = List.length (snd (compile_all l cs1)) /\
  (forall ci c1 c2, nth_error (snd (compile_all l cs1)) ci = Some c1 -> nth_error (snd (compile_all l cs2)) ci = Some c2 -> c_at c2 = lane_attrs i (F ci) (c_at c1) /\ c_modified c2 = c_modified c1).
Proof.
  induction l as [|(n, ci) l IH]; intros cs1 cs2 R1 R2 Hl Hc js Hj; cbn in Hj |- *; [now split|].
  destruct (nth_error cs1 ci) as [c1|] eqn:E1; [|discriminate]. destruct (nth_same_length _ cs2 ci c1 Hl E1) as [c2 E2]. rewrite E2.
  pose proof R1 as R1'. pose proof R2 as R2'. rewrite Forall_forall in R1', R2'.
  assert (Q1 : reachable c1) by (apply R1'; eapply nth_error_In; eauto). assert (Q2 : reachable c2) by (apply R2'; eapply nth_error_In; eauto).
  pose proof (reachable_Inv _ Q1) as I1. pose proof (reachable_Inv _ Q2) as I2. destruct (Hc ci c1 c2 E1 E2) as [Ha Hm].
  pose proof (jax_value _ I1) as V1. pose proof (jax_value _ I2) as V2. rewrite Ha, lane_jax, <- V1 in V2.
  pose proof (jax_exact c1) as X1. pose proof (jax_exact c2) as X2. pose proof (reachable_jax c1 Q1) as S1. pose proof (reachable_jax c2 Q2) as S2.
  destruct (jax_component c1) as [[j1|e1] c1']; cbn [fst snd] in *; [|discriminate].
  destruct (jax_component c2) as [[j2|e2] c2']; cbn [fst snd bind] in *; [|discriminate].
  destruct (X1 j1 I1 eq_refl) as (M1 & N1 & P1). destruct (X2 j2 I2 eq_refl) as (M2 & N2 & P2).
  assert (Ha' : c_at c2' = lane_attrs i (F ci) (c_at c1') /\ c_modified c2' = c_modified c1').
  { split; [|congruence]. destruct (c_modified c1) eqn:Em.
    - specialize (P1 eq_refl). specialize (P2 Hm). rewrite Ha, lane_forced, P1 in P2. cbn in P2. now injection P2.
    - rewrite N1, N2 by auto. exact Ha. }
  assert (Q : forall ck d1 d2, nth_error (replace_nth ci c1' cs1) ck = Some d1 -> nth_error (replace_nth ci c2' cs2) ck = Some d2 -> c_at d2 = lane_attrs i (F ck) (c_at d1) /\ c_modified d2 = c_modified d1).
  { intros ck d1 d2 H1 H2. destruct (Nat.eq_dec ci ck) as [<-|Hne].
    - rewrite (nth_replace_same _ _ _ _ E1) in H1. rewrite (nth_replace_same _ _ _ _ E2) in H2. injection H1 as <-. injection H2 as <-. exact Ha'.
    - rewrite nth_replace_other in H1 by exact Hne. rewrite nth_replace_other in H2 by exact Hne. now apply Hc. }
  assert (K : exists js', fst (compile_all l (replace_nth ci c1' cs1)) = Ok js').
  { destruct (compile_all l (replace_nth ci c1' cs1)) as [[js'|] ?]; [now exists js'|discriminate]. }
  destruct K as [js' K]. specialize (IH (replace_nth ci c1' cs1) (replace_nth ci c2' cs2) (Forall_replace _ _ _ _ S1 R1) (Forall_replace _ _ _ _ S2 R2)).
  rewrite !replace_length in IH. specialize (IH Hl Q js' K).
  destruct (compile_all l (replace_nth ci c1' cs1)) as [[?|?] x1]; destruct (compile_all l (replace_nth ci c2' cs2)) as [[?|?] x2]; exact IH.
Qed.
Lemma compile_in_step i F pi w1 w2 pd : Forall reachable (w_comps w1) -> Forall reachable (w_comps w2) -> in_step i F w1 w2 ->
  fst (step (WCompile pi) w1) = Ok (OData pd) -> in_step i F (snd (step (WCompile pi) w1)) (snd (step (WCompile pi) w2)).
Proof.
  intros R1 R2 ((L1 & L2 & L3) & M) H. cbn [step] in H |- *. unfold compile in *. rewrite L1. destruct (nth_error (w_probs w1) pi) as [p|] eqn:Hp; [|discriminate].
  destruct (compile_all_step i F (p_comps p) (w_comps w1) (w_comps w2) R1 R2 L2) with (js := jd_comps pd) as [A B].
  - intros ci c1 c2 H1 H2. split; [now apply L3|now apply (M ci)].
  - destruct (compile_all (p_comps p) (w_comps w1)) as [[js|] x]; [|discriminate]. cbn in H |- *. now injection H as <-.
  - destruct (compile_all (p_comps p) (w_comps w1)) as [[js|] x1]; [|discriminate]. destruct (compile_all (p_comps p) (w_comps w2)) as [[js2|e2] x2]; cbn [fst snd] in *;
      (split; [split; [first [exact L1|reflexivity]|]; split; [exact A|]|]; cbn [w_comps]; intros ci c1 c2 H1 H2; now apply (B ci)).
Qed.
