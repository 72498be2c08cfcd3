(** Proofs about the caller's lists and arrays. *)
From Verif Require Import Base Lin Mjx Typing Component Problem ProblemFacts Alias SpecAlias.
Open Scope nat_scope.

(** ** Every scene has one entry of kept lists for each component. *)
Lemma let_go_all_length cs cs' ks : List.length ks = List.length cs -> List.length cs' = List.length cs \/ List.length cs' = S (List.length cs) ->
  List.length (let_go_all cs cs' ks) = List.length cs'.
Proof.
  revert cs' ks; induction cs as [|c cs IH]; intros cs' ks Hk Hl; destruct ks as [|k ks]; try discriminate Hk; destruct cs' as [|c' cs']; cbn [let_go_all List.length] in *; try lia.
  - f_equal; apply IH; lia.
Qed.
Lemma replace_nth_length' {A} i (x : A) l : List.length (replace_nth i x l) = List.length l.
Proof. revert i; induction l as [|y l IH]; intros [|i]; cbn; auto. Qed.
Lemma compile_all_length l cs : List.length (snd (compile_all l cs)) = List.length cs.
Proof.
  revert cs; induction l as [|[n i] l IH]; intros cs; cbn [compile_all]; auto.
  destruct (nth_error cs i) as [c|]; auto. destruct (jax_component c) as [[j|e] c']; cbn; [|apply replace_nth_length'].
  specialize (IH (replace_nth i c' cs)). destruct (compile_all l (replace_nth i c' cs)) as [[js|e] cs']; cbn in *; rewrite IH; apply replace_nth_length'.
Qed.
Lemma step_length o w : List.length (w_comps (snd (step o w))) = List.length (w_comps w) \/ List.length (w_comps (snd (step o w))) = S (List.length (w_comps w)).
Proof.
  destruct o; cbn [step].
  - right; cbn; rewrite app_length; cbn; lia.
  - destruct (new_problem m vmin vmax); left; reflexivity.
  - left. destruct (nth_error (w_comps w) ci) as [c|]; auto. destruct (run_cop o c) as [r c']; cbn; apply replace_nth_length'.
  - left. unfold add_component. destruct (nth_error (w_probs w) pi) as [p|]; auto. destruct (nth_error (w_comps w) ci) as [c|]; auto.
    destruct (has_name _ p); auto. destruct (update_model (p_model p) c) as [[u|e] c']; cbn; apply replace_nth_length'.
  - left. unfold remove_component. destruct (nth_error (w_probs w) pi) as [p|]; auto. destruct (has_name n p); auto.
  - left. destruct (nth_error (w_probs w) pi) as [p|]; auto. destruct (update_v_min t p); auto.
  - left. destruct (nth_error (w_probs w) pi) as [p|]; auto. destruct (update_v_max t p); auto.
  - left. unfold compile. destruct (nth_error (w_probs w) pi) as [p|]; auto. pose proof (compile_all_length (p_comps p) (w_comps w)) as H.
    destruct (compile_all (p_comps p) (w_comps w)) as [[js|e] cs]; exact H.
  - left. unfold component, lookup. destruct (nth_error (w_probs w) pi) as [p|]; auto. destruct (assoc n (p_comps p)); auto. destruct (nth_error (w_comps w) n0); auto.
  - left. unfold task, lookup. destruct (nth_error (w_probs w) pi) as [p|]; auto. destruct (assoc n (p_comps p)); auto. destruct (nth_error (w_comps w) n0); auto. destruct (is_task c); auto.
  - left. unfold barrier, lookup. destruct (nth_error (w_probs w) pi) as [p|]; auto. destruct (assoc n (p_comps p)); auto. destruct (nth_error (w_comps w) n0); auto. destruct (is_barrier c); auto.
Qed.
Lemma show_all_length r o ks cs : List.length (show_all r o ks cs) = List.length cs.
Proof. revert cs; induction ks as [|k ks IH]; intros [|c cs]; cbn; auto. Qed.

Definition aligned (s : scene) : Prop := List.length (s_kept s) = List.length (w_comps (s_world s)).
Lemma act_aligned a s : aligned s -> aligned (snd (act_step a s)).
Proof.
  unfold aligned; intros H. destruct a; cbn [act_step].
  - exact H.
  - destruct (nth_error (s_mem s) r) as [o0|]; auto. destruct (same_kind o0 o); auto. cbn. rewrite show_all_length; exact H.
  - pose proof (step_length (f (s_mem s)) (s_world s)) as Hs. destruct (step (f (s_mem s)) (s_world s)) as [r w]. cbn [snd s_kept s_world] in *. apply let_go_all_length; auto.
  - destruct (construct _ (s_mem s)) as [[[c|e] k]|]; auto. cbn. rewrite !app_length; cbn; lia.
  - destruct (construct _ (s_mem s)) as [[[c|e] k]|]; auto. cbn. rewrite !app_length; cbn; lia.
  - destruct (construct _ (s_mem s)) as [[[c|e] k]|]; auto. cbn. rewrite !app_length; cbn; lia.
Qed.
Lemma act_run_aligned l s : aligned s -> aligned (act_run l s).
Proof. revert s; induction l as [|a l IH]; intros s H; cbn; auto. apply IH, act_aligned, H. Qed.
Lemma empty_aligned : aligned empty_scene.
Proof. reflexivity. Qed.

(** ** Kept lists were handed over. *)
Definition holds_ref (k : kept) (r : nat) : Prop := k_mask k = Some r \/ k_bodies k = Some r \/ k_excl k = Some r.
Lemma let_go_ref c c' k r : holds_ref (let_go c c' k) r -> holds_ref k r.
Proof.
  unfold let_go, holds_ref. destruct (body_list c) as [[|b l]|]; auto. destruct (body_list c') as [[|b' l']|]; auto; cbn; intuition discriminate.
Qed.
Lemma let_go_all_ref cs cs' ks k r : In k (let_go_all cs cs' ks) -> holds_ref k r -> exists k', In k' ks /\ holds_ref k' r.
Proof.
  revert cs' ks; induction cs as [|c cs IH]; intros cs' ks Hin Hr.
  - destruct cs' as [|c' cs']; cbn in Hin; eauto. destruct Hin as [<-|[]]. unfold holds_ref in Hr; cbn in Hr; intuition discriminate.
  - destruct cs' as [|c' cs']; cbn in Hin; eauto. destruct ks as [|k0 ks]; cbn in Hin; [destruct Hin|]. destruct Hin as [<-|Hin].
    + exists k0; split; [left; reflexivity|]. eapply let_go_ref; eauto.
    + destruct (IH _ _ Hin Hr) as (k' & Hi & Hk). exists k'; split; [right|]; auto.
Qed.
Lemma construct_ref a h x k r : construct a h = Some (x, k) -> holds_ref k r -> hands_over a r.
Proof.
  unfold holds_ref. destruct a; cbn [construct]; try discriminate; intros E; inversion E; subst; cbn; intuition discriminate.
Qed.
Lemma kept_step a s k r : In k (s_kept (snd (act_step a s))) -> holds_ref k r -> hands_over a r \/ exists k', In k' (s_kept s) /\ holds_ref k' r.
Proof.
  destruct a; cbn [act_step].
  - intros H1 H2; right; exists k; auto.
  - destruct (nth_error (s_mem s) r0) as [o0|]; [destruct (same_kind o0 o)|]; intros H1 H2; right; exists k; auto.
  - destruct (step (f (s_mem s)) (s_world s)) as [x w]. cbn [snd s_kept]. intros H1 H2; right. eapply let_go_all_ref; eauto.
  - destruct (construct _ (s_mem s)) as [[[c|e] k0]|] eqn:E; intros H1 H2; try (right; exists k; auto; fail).
    cbn [snd s_kept] in H1. apply in_app_or in H1. destruct H1 as [H1|[<-|[]]]; [right; exists k; auto|left; eapply construct_ref; eauto].
  - destruct (construct _ (s_mem s)) as [[[c|e] k0]|] eqn:E; intros H1 H2; try (right; exists k; auto; fail).
    cbn [snd s_kept] in H1. apply in_app_or in H1. destruct H1 as [H1|[<-|[]]]; [right; exists k; auto|left; eapply construct_ref; eauto].
  - destruct (construct _ (s_mem s)) as [[[c|e] k0]|] eqn:E; intros H1 H2; try (right; exists k; auto; fail).
    cbn [snd s_kept] in H1. apply in_app_or in H1. destruct H1 as [H1|[<-|[]]]; [right; exists k; auto|left; eapply construct_ref; eauto].
Qed.

Lemma show_all_none r o ks cs : (forall k, In k ks -> ~ holds_ref k r) -> show_all r o ks cs = cs.
Proof.
  revert cs; induction ks as [|k ks IH]; intros [|c cs] H; cbn [show_all]; auto.
  rewrite IH by (intros k' Hk; apply H; right; exact Hk).
  destruct (keeps r o k) eqn:E; auto. exfalso. apply (H k (or_introl eq_refl)). unfold holds_ref.
  destruct o; cbn in E; try discriminate; unfold is_ref in E; [destruct (k_mask k)|destruct (k_bodies k)|destruct (k_excl k)]; try discriminate; apply Nat.eqb_eq in E; subst; auto.
Qed.

(** ** A program that leaves its lists alone runs as if every argument were copied. *)
Lemma mem_step a s : s_mem (snd (act_step a s)) = objects_after [a] (s_mem s).
Proof.
  destruct a; cbn [act_step objects_after fold_left]; auto.
  - unfold changed. destruct (nth_error (s_mem s) r) as [o0|]; auto. destruct (same_kind o0 o); auto.
  - destruct (step (f (s_mem s)) (s_world s)) as [r w]; auto.
  - destruct (construct _ (s_mem s)) as [[[c|e] k]|]; auto.
  - destruct (construct _ (s_mem s)) as [[[c|e] k]|]; auto.
  - destruct (construct _ (s_mem s)) as [[[c|e] k]|]; auto.
Qed.
Lemma mem_run l s : s_mem (act_run l s) = objects_after l (s_mem s).
Proof.
  revert s; induction l as [|a l IH]; intros s; cbn [act_run fold_left]; auto.
  change (s_mem (act_run l (snd (act_step a s))) = objects_after (a :: l) (s_mem s)). rewrite IH, mem_step. reflexivity.
Qed.
Lemma world_step a s : (forall r o k, a = AWrite r o -> In k (s_kept s) -> ~ holds_ref k r) ->
  s_world (snd (act_step a s)) = run (copied_call a (s_mem s)) (s_world s).
Proof.
  intros H. destruct a; cbn [act_step copied_call construct]; auto.
  - destruct (nth_error (s_mem s) r) as [o0|]; auto. destruct (same_kind o0 o); auto. cbn [snd s_world run fold_left].
    rewrite show_all_none by (intros k Hk; eapply H; eauto). destruct (s_world s); reflexivity.
  - cbn [run fold_left]. destruct (step (f (s_mem s)) (s_world s)) as [r w]; reflexivity.
  - destruct (do l <- mask_arg (s_mem s) mask; new_joint_task name (cost (s_mem s)) (gain (s_mem s)) gain_fn lm l) as [c|e]; reflexivity.
  - destruct (do l <- mask_arg (s_mem s) mask; new_joint_barrier name (gain (s_mem s)) gain_fn sdg (q_min (s_mem s)) (q_max (s_mem s)) l) as [c|e]; reflexivity.
  - destruct (do l <- bodies_arg (s_mem s) bodies; do p <- pairs_arg (s_mem s) excl; new_self_collision name (gain (s_mem s)) gain_fn sdg d_min l p n) as [c|e]; reflexivity.
Qed.
Lemma run_app' a b w : run (a ++ b) w = run b (run a w).
Proof. unfold run. apply fold_left_app. Qed.
Lemma by_value_app p q h : by_value (p ++ q) h = by_value p h ++ by_value q (objects_after p h).
Proof.
  revert h; induction p as [|a p IH]; intros h; cbn [app by_value objects_after fold_left]; auto.
  rewrite IH, app_assoc. reflexivity.
Qed.
Lemma left_alone_front p q : left_alone (p ++ q) -> left_alone p.
Proof.
  intros H p0 a q0 r o E Hh Hin. refine (H p0 a (q0 ++ q) r o _ Hh _); [rewrite E, <- app_assoc; reflexivity|apply in_or_app; auto].
Qed.
Lemma kept_handed l : forall k r, In k (s_kept (act_run l empty_scene)) -> holds_ref k r -> exists a, In a l /\ hands_over a r.
Proof.
  induction l as [|a l IH] using rev_ind; intros k r Hin Hr; [destruct Hin|].
  unfold act_run in Hin. rewrite fold_left_app in Hin. cbn [fold_left] in Hin. destruct (kept_step _ _ _ _ Hin Hr) as [H|(k' & Hi & Hk)].
  - exists a; split; auto. apply in_or_app; right; left; reflexivity.
  - destruct (IH _ _ Hi Hk) as (a' & Ha & Hh). exists a'; split; auto. apply in_or_app; auto.
Qed.
Theorem runs_by_value prog : left_alone prog -> s_world (act_run prog empty_scene) = run (by_value prog []) empty_world.
Proof.
  induction prog as [|a prog IH] using rev_ind; intros H; [reflexivity|].
  unfold act_run. rewrite fold_left_app. cbn [fold_left]. fold (act_run prog empty_scene).
  rewrite world_step.
  - rewrite by_value_app, run_app', <- (IH (left_alone_front _ _ H)), mem_run. cbn [by_value]. rewrite app_nil_r. reflexivity.
  - intros r o k -> Hin Hr. destruct (kept_handed _ _ _ Hin Hr) as (a' & Ha & Hh). apply in_split in Ha. destruct Ha as (p & q & ->).
    refine (H p a' (q ++ [AWrite r o]) r o _ Hh _); [rewrite <- app_assoc; reflexivity|apply in_or_app; right; left; reflexivity].
Qed.
Theorem calls_by_value p f q : left_alone (p ++ ACall f :: q) ->
  fst (act_step (ACall f) (act_run p empty_scene)) = fst (step (f (objects_after p [])) (run (by_value p []) empty_world)).
Proof.
  intros H. cbn [act_step]. rewrite mem_run, <- runs_by_value by (eapply left_alone_front; eauto).
  destruct (step _ _) as [r w]; reflexivity.
Qed.
Theorem numbers_copied prog r o : (forall a, In a prog -> ~ hands_over a r) ->
  s_world (act_run (prog ++ [AWrite r o]) empty_scene) = s_world (act_run prog empty_scene).
Proof.
  intros H. unfold act_run. rewrite fold_left_app. cbn [fold_left]. fold (act_run prog empty_scene). rewrite world_step; [reflexivity|].
  intros r' o' k E Hin Hr. injection E as <- <-. destruct (kept_handed _ _ _ Hin Hr) as (a & Ha & Hh). exact (H a Ha Hh).
Qed.
