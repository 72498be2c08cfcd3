(** Looks leave every later answer and attribute as it would have been. *)
From Verif Require Import Base Lin LinFacts Mjx Typing Component SpecComponent ComponentFacts ComponentFacts2 SpecSettings SettingFacts SettingThms Read SpecRead ReadFacts.
Open Scope nat_scope.
#[local] Arguments Nat.ltb : simpl never.
#[local] Arguments Nat.eqb : simpl never.
#[local] Arguments build_component : simpl never.
#[local] Arguments zrange : simpl never.
#[local] Arguments Z.eqb : simpl never.
#[local] Arguments Z.le : simpl never.
#[local] Arguments Z.compare : simpl never.

Lemma init_comp_cases name gain gf mk e a : init_component name gain gf mk e = Ok a ->
  a_dim a = (-1)%Z /\ a_ext a = e /\ (mk <> None -> a_mask a <> None).
Proof.
  unfold init_component. destruct (Nat.ltb _ _); [discriminate|]. destruct mk as [k|].
  - destruct (negb _); [discriminate|]. intros H. injection H as <-. cbn. repeat split. discriminate.
  - intros H. injection H as <-. cbn. repeat split. congruence.
Qed.
Lemma init_task_cases name cost gain gf lm mk k a : init_task name cost gain gf lm mk k = Ok a ->
  a_dim a = (-1)%Z /\ a_ext a = XTask cost lm k.
Proof.
  unfold init_task. destruct (init_component _ _ _ _ _) as [a'|] eqn:E; cbn; [|discriminate].
  destruct (Rlt_dec _ _); [discriminate|]. destruct (Nat.ltb _ _); [discriminate|]. intros H. injection H as <-.
  destruct (init_comp_cases _ _ _ _ _ _ E) as (H1 & H2 & _). auto.
Qed.
Lemma minv_loose a : settled (a_ext a) = false -> (forall s k, a_ext a <> XBarrier s (BSelf k)) -> minv a.
Proof. intros H1 H2. split; [congruence|]. intros s k E. now destruct (H2 s k). Qed.
Lemma minv_nodim a : a_dim a = (-1)%Z -> minv a.
Proof. intros H. split; [auto|]. intros; congruence. Qed.
Lemma minv_masked a : a_mask a <> None -> (forall s k, a_ext a <> XBarrier s (BSelf k)) -> minv a.
Proof. intros H1 H2. split; [congruence|]. intros s k E. now destruct (H2 s k). Qed.

Lemma constructed_minv c : constructed c -> minv (c_at c).
Proof.
  intros H. destruct H as [? ? ? ? ? ? c H|? ? ? ? ? ? ? ? c H|? ? ? ? ? ? ? ? c H|? ? ? ? ? ? c H|? ? ? ? ? ? ? ? c H|? ? ? ? lo hi lt ? ? mk c H|? ? ? ? ? ? ? c H|? ? ? ? ? ? ? ? c H|? ? ? ? ? ? ? c H|? ? ? ? c H|? ? ? ? ? ? ? c H].
  - unfold new_com_task in H. match type of H with bind ?x _ = _ => destruct x as [[]|]; cbn [bind] in H; [|discriminate] end.
    destruct (init_task _ _ _ _ _ _ _) as [a|]; cbn in H; [|discriminate]. injection H as <-. apply minv_loose; cbn; [reflexivity|discriminate].
  - unfold new_position_task in H. destruct (init_task _ _ _ _ _ _ _) as [a|]; cbn in H; [|discriminate]. injection H as <-. apply minv_loose; cbn; [reflexivity|discriminate].
  - unfold new_frame_task in H. destruct (init_task _ _ _ _ _ _ _) as [a|] eqn:E; cbn in H; [|discriminate]. injection H as <-.
    destruct (init_task_cases _ _ _ _ _ _ _ _ E) as [_ He]. apply minv_loose; cbn; rewrite He; [reflexivity|discriminate].
  - unfold new_joint_task in H. destruct (init_task _ _ _ _ _ _ _) as [a|] eqn:E; cbn in H; [|discriminate]. injection H as <-.
    destruct (init_task_cases _ _ _ _ _ _ _ _ E) as [Hd _]. apply minv_nodim. exact Hd.
  - unfold new_custom_task in H. destruct (init_task _ _ _ _ _ _ _) as [a|] eqn:E; cbn in H; [|discriminate]. injection H as <-.
    destruct (init_task_cases _ _ _ _ _ _ _ _ E) as [_ He]. apply minv_loose; cbn; rewrite He; [reflexivity|discriminate].
  - unfold new_position_barrier in H.
    destruct (init_barrier _ _ _ _ _ _) as [a|] eqn:E; cbn in H; [|discriminate]. unfold init_barrier in E.
    destruct (init_comp_cases _ _ _ _ _ _ E) as (_ & _ & Hm). specialize (Hm ltac:(discriminate)).
    destruct (negb _); [discriminate|]. destruct (from_str lt) as [l|]; cbn in H; [|discriminate].
    match type of H with (let (_, _) := ?x in _) = _ => destruct x as [idxs d] end.
    match type of H with context [new_comp ?x] => set (a1 := x) in H end.
    assert (I1 : minv a1) by (apply minv_masked; [exact Hm|discriminate]).
    assert (I2 : forall c1, (match lo with None => Ok (new_comp a1) | Some x => run_init (new_comp a1) (update_p_min x) end) = Ok c1 -> minv (c_at c1)).
    { intros c1. destruct lo as [x|]; [|intros X; now injection X as <-]. unfold run_init.
      pose proof (minv_call (OpPMin x) (new_comp a1) I I1) as K. unfold after in K. cbn [run_cop] in K.
      destruct (update_p_min x (new_comp a1)) as [[]]; [|discriminate]. intros X. now injection X as <-. }
    match type of H with bind ?x _ = _ => destruct x as [c1|]; cbn [bind] in H; [|discriminate] end. specialize (I2 c1 eq_refl).
    destruct hi as [x|]; [|now injection H as <-]. unfold run_init in H.
    pose proof (minv_call (OpPMax x) c1 I I2) as K. unfold after in K. cbn [run_cop] in K.
    destruct (update_p_max x c1) as [[]]; [|discriminate]. now injection H as <-.
  - unfold new_joint_barrier in H. destruct (init_barrier _ _ _ _ _ _) as [a|] eqn:E; cbn in H; [|discriminate]. injection H as <-.
    apply minv_nodim. apply (init_comp_cases _ _ _ _ _ _ E).
  - unfold new_self_collision in H. destruct (init_barrier _ _ _ _ _ _) as [a|] eqn:E; cbn in H; [|discriminate]. injection H as <-.
    apply minv_nodim. apply (init_comp_cases _ _ _ _ _ _ E).
  - unfold new_custom_barrier in H. destruct (init_barrier _ _ _ _ _ _) as [a|] eqn:E; cbn in H; [|discriminate]. injection H as <-.
    destruct (init_comp_cases _ _ _ _ _ _ E) as (_ & He & _). apply minv_loose; cbn; rewrite He; [reflexivity|discriminate].
  - unfold new_model_equality in H. destruct (init_component _ _ _ _ _) as [a|] eqn:E; cbn in H; [|discriminate]. injection H as <-.
    apply minv_nodim. apply (init_comp_cases _ _ _ _ _ _ E).
  - unfold new_custom_constraint in H. destruct (init_component _ _ _ _ _) as [a|] eqn:E; cbn in H; [|discriminate]. injection H as <-.
    destruct (init_comp_cases _ _ _ _ _ _ E) as (_ & He & _). apply minv_loose; cbn; rewrite He; [reflexivity|discriminate].
Qed.
Lemma constructed_Inv c : constructed c -> Inv c.
Proof. intros H. apply reachable_Inv. exists c, []. now split. Qed.

(** ** Simulation along uses *)
Lemma uses_sim us : forall c1 c2, Forall public us -> sim (c_at c1) (c_at c2) -> minv (c_at c2) -> Inv c1 -> Inv c2 ->
  answers us c1 = answers (map Do (calls us)) c2 /\
  sim (c_at (uses us c1)) (c_at (uses (map Do (calls us)) c2)) /\ Inv (uses us c1) /\ Inv (uses (map Do (calls us)) c2).
Proof.
  induction us as [|u us IH]; intros c1 c2 HF S M I1 I2; [cbn; auto|].
  apply Forall_cons_iff in HF. destruct HF as [Hu HF]. destruct u as [o|x].
  - destruct (sim_call o c1 c2 Hu S M) as [E1 E2]. cbn [answers calls map]. rewrite E1.
    destruct (IH (use_once c1 (Do o)) (use_once c2 (Do o)) HF E2 (minv_call o c2 Hu M) (do_Inv o c1 I1) (do_Inv o c2 I2)) as (A & B).
    cbn [uses fold_left]. split; [now f_equal|exact B].
  - cbn [answers calls]. destruct (IH (use_once c1 (Look x)) c2 HF) as (A & B); auto.
    + destruct (look_state x c1 I1) as [->|F]; [exact S|]. now apply (sim_look _ _ _ S M).
    + now apply look_Inv.
Qed.
Lemma uses_do os : forall c, uses (map Do os) c = history os c.
Proof. induction os as [|o os IH]; intros c; [reflexivity|]. cbn. apply IH. Qed.
Lemma calls_api us : Forall public us -> Forall api_op (calls us).
Proof.
  induction us as [|[o|x] us IH]; intros H; apply Forall_cons_iff in H || idtac; cbn; auto; destruct H as [H1 H2]; auto.
  constructor; auto. now destruct o.
Qed.

Lemma jax_pure_masked a l l' : jax_pure (masked a l) = jax_pure (masked a l').
Proof. reflexivity. Qed.
Lemma sim_shows c1 c2 x : sim (c_at c1) (c_at c2) -> Inv c1 -> Inv c2 -> x <> AModified -> (eq_kind (a_ext (c_at c2)) = true -> x <> AMask) ->
  shows c1 x = shows c2 x.
Proof.
  intros S I1 I2 Hx He. unfold shows.
  destruct S as [E|(Hm & Hd & Hs & l & E & Hl)].
  - destruct x; cbn [get]; try (unfold read; cbn [fst]; now rewrite E); try congruence.
    + now rewrite !via_fst, !mask_fst, E.
    + now rewrite !via_fst, !mask_idxs_fst, E.
    + now rewrite !via_fst, !jax_value, E by assumption.
  - destruct x; cbn [get]; try (unfold read; cbn [fst]; rewrite E; reflexivity); try congruence.
    + destruct Hl as [Hl|Hl]; [now specialize (He Hl)|].
      rewrite !via_fst, !mask_fst, (forced_none _ Hm Hd), E. cbn. now rewrite Hl.
    + rewrite !via_fst, !mask_idxs_fst, (forced_none _ Hm Hd), E. reflexivity.
    + rewrite !via_fst, !jax_value by assumption. rewrite <- (jax_pure_forced _ _ (forced_none _ Hm Hd)), E. reflexivity.
Qed.

Lemma looking_changes_nothing c us : constructed c -> Forall public us ->
  answers us c = answers (map Do (calls us)) c /\
  forall x, x <> AModified -> (is_equality c -> x <> AMask) -> shows (uses us c) x = shows (uses (map Do (calls us)) c) x.
Proof.
  intros Hc HF. pose proof (constructed_Inv c Hc) as HI.
  destruct (uses_sim us c c HF (or_introl eq_refl) (constructed_minv c Hc) HI HI) as (A & S & I1 & I2).
  split; [exact A|]. intros x Hx He. apply sim_shows; auto. intros Hk. apply He.
  rewrite uses_do in Hk. destruct (fixed_settings c (calls us) (calls_api us HF)) as (_ & _ & Hcl & _).
  unfold is_equality. rewrite <- Hcl. unfold class_of. destruct (a_ext (c_at (history (calls us) c))) as [| |? ? ? []]; try discriminate. eauto.
Qed.
