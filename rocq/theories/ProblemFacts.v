(** Problems over histories. *)
From Verif Require Import Base Lin LinFacts Mjx Typing Component Problem SpecComponent ComponentFacts ComponentFacts2
  SpecHistory SpecProblem CoreFacts.
Open Scope nat_scope.

#[local] Arguments update_model : simpl never.
#[local] Arguments jax_component : simpl never.
#[local] Arguments run_cop : simpl never.

(** ** Lists *)
Lemma Forall2_length {A B} (P : A -> B -> Prop) l l' : Forall2 P l l' -> List.length l = List.length l'.
Proof. induction 1; cbn; auto. Qed.
Lemma Forall2_impl {A B} (P Q : A -> B -> Prop) l l' : (forall a b, P a b -> Q a b) -> Forall2 P l l' -> Forall2 Q l l'.
Proof. induction 2; constructor; auto. Qed.
Lemma nth_replace {A} i j (x : A) l :
  nth_error (replace_nth i x l) j = if Nat.eqb i j then (if Nat.ltb i (List.length l) then Some x else None) else nth_error l j.
Proof.
  revert i j. induction l as [|y l IH]; intros i j.
  - destruct i; cbn; destruct j; cbn; try reflexivity; try destruct (Nat.eqb i j); reflexivity.
  - destruct i, j; cbn; try reflexivity. rewrite IH. reflexivity.
Qed.
Lemma nth_replace_same {A} i (x y : A) l : nth_error l i = Some y -> nth_error (replace_nth i x l) i = Some x.
Proof.
  intros H. rewrite nth_replace, Nat.eqb_refl. assert (i < List.length l) by (apply nth_error_Some; congruence).
  now rewrite (proj2 (Nat.ltb_lt _ _)).
Qed.
Lemma nth_replace_other {A} i j (x : A) l : i <> j -> nth_error (replace_nth i x l) j = nth_error l j.
Proof. intros H. rewrite nth_replace. now rewrite (proj2 (Nat.eqb_neq _ _) H). Qed.
Lemma replace_length {A} i (x : A) l : List.length (replace_nth i x l) = List.length l.
Proof. revert i. induction l; intros [|i]; cbn; auto. Qed.
Lemma replace_self {A} i (x : A) l : nth_error l i = Some x -> replace_nth i x l = l.
Proof. revert i. induction l as [|y l IH]; intros [|i] H; cbn in *; try discriminate; [now injection H as ->|]. now rewrite IH. Qed.

Lemma run_app os os' w : run (os ++ os') w = run os' (run os w).
Proof. unfold run. apply fold_left_app. Qed.
Lemma run_snoc os o w : run (os ++ [o]) w = snd (step o (run os w)).
Proof. now rewrite run_app. Qed.

(** ** The effect of one step on one problem *)
Definition add_effect (o : wop) (w : world) (pi : nat) (l : list (string * nat)) : list (string * nat) :=
  match o with
  | WAdd pi' ci => if Nat.eqb pi' pi then
      (match fst (step o w), nth_error (w_comps w) ci with
       | Ok _, Some c => l ++ [(a_name (c_at c), ci)] | _, _ => l end) else l
  | WRemove pi' n => if Nat.eqb pi' pi then remove_name n l else l
  | _ => l
  end.

Lemma compile_probs pi w : w_probs (snd (compile pi w)) = w_probs w.
Proof.
  unfold compile. destruct (nth_error (w_probs w) pi); [|reflexivity].
  destruct (compile_all _ _) as [[js|e] cs]; reflexivity.
Qed.
Lemma lookup_world f pi n w : snd (lookup f pi n w) = w.
Proof.
  unfold lookup. destruct (nth_error _ _); [|reflexivity]. destruct (assoc _ _); [|reflexivity].
  destruct (nth_error _ _); [|reflexivity]. now destruct (f c).
Qed.

Lemma has_name_in n p : has_name n p = true <-> In n (map fst (p_comps p)).
Proof.
  unfold has_name. rewrite existsb_exists, in_map_iff. split.
  - intros ((k, v) & H & E). apply String.eqb_eq in E. cbn in E. subst. exists (k, v). auto.
  - intros ((k, v) & E & H). exists (k, v). split; [exact H|]. cbn in *. subst. apply String.eqb_refl.
Qed.
Lemma remove_name_absent n l : ~ In n (map fst l) -> remove_name n l = l.
Proof.
  induction l as [|(k, v) l IH]; cbn; intros H; [reflexivity|].
  destruct (String.eqb n k) eqn:E; [apply String.eqb_eq in E; subst; tauto|]. cbn. f_equal. apply IH. tauto.
Qed.

(** Problem [pi] after one step, if it existed before. *)
Lemma step_problem o w pi p : nth_error (w_probs w) pi = Some p ->
  exists p', nth_error (w_probs (snd (step o w))) pi = Some p' /\ p_model p' = p_model p /\
    p_comps p' = add_effect o w pi (p_comps p) /\
    (match o with WVmin _ _ | WVmax _ _ => True | _ => p_vmin p' = p_vmin p /\ p_vmax p' = p_vmax p end).
Proof.
  intros Hp. destruct o; cbn [step add_effect]; 
    try (exists p; unfold component, task, barrier; rewrite ?compile_probs, ?lookup_world; cbn; auto; fail).
  - destruct (new_problem m vmin vmax); cbn; [|eauto 6]. exists p. rewrite nth_error_app1; [auto|]. apply nth_error_Some. congruence.
  - destruct (nth_error (w_comps w) ci); [|eauto 6]. destruct (run_cop o c) as [r c']. cbn. eauto 6.
  - rename pi0 into pi'. unfold add_component. destruct (nth_error (w_probs w) pi') as [p0|] eqn:E0.
    2: { destruct (Nat.eqb pi' pi) eqn:E; [apply Nat.eqb_eq in E; subst; congruence|]. cbn. eauto 6. }
    destruct (nth_error (w_comps w) ci) as [c|] eqn:Ec; cbn.
    2: { exists p. destruct (Nat.eqb pi' pi); auto. }
    destruct (has_name (a_name (c_at c)) p0); cbn; [exists p; destruct (Nat.eqb pi' pi); auto|].
    destruct (update_model (p_model p0) c) as [[u|e] c'] eqn:Eu; cbn; [|exists p; destruct (Nat.eqb pi' pi); auto].
    destruct (Nat.eqb pi' pi) eqn:E.
    + apply Nat.eqb_eq in E. subst pi'. assert (p0 = p) by congruence. subst p0. rewrite (nth_replace_same _ _ p _ Hp).
      eexists. split; [reflexivity|]. cbn. split; [reflexivity|]. split; [|auto].
      pose proof (update_model_name (p_model p) c) as Hn. rewrite Eu in Hn. cbn in Hn. now rewrite Hn.
    + apply Nat.eqb_neq in E. rewrite nth_replace_other by exact E. eauto 6.
  - rename pi0 into pi'. unfold remove_component. destruct (nth_error (w_probs w) pi') as [p0|] eqn:E0.
    2: { destruct (Nat.eqb pi' pi) eqn:E; [apply Nat.eqb_eq in E; subst; congruence|]. cbn. eauto 6. }
    destruct (Nat.eqb pi' pi) eqn:E.
    + apply Nat.eqb_eq in E. subst pi'. assert (p0 = p) by congruence. subst p0. destruct (has_name n p) eqn:Eh; cbn.
      * rewrite (nth_replace_same _ _ p _ Hp). eexists. split; [reflexivity|]. cbn. auto.
      * exists p. rewrite remove_name_absent; [auto|]. rewrite <- has_name_in. congruence.
    + apply Nat.eqb_neq in E. destruct (has_name n p0); cbn; [|eauto 6]. rewrite nth_replace_other by exact E. eauto 6.
  - rename pi0 into pi'. destruct (nth_error (w_probs w) pi') as [p0|] eqn:E0; [|cbn; eauto 6].
    destruct (update_v_min t p0) as [p1|] eqn:Eu; cbn; [|eauto 6]. unfold update_v_min in Eu.
    destruct (limit_vector (p_model p0) t) as [v|]; cbn in Eu; [|discriminate]. injection Eu as <-. destruct (Nat.eqb pi' pi) eqn:E.
    + apply Nat.eqb_eq in E. subst pi'. assert (p0 = p) by congruence. subst p0.
      rewrite (nth_replace_same _ _ p _ Hp). eexists. split; [reflexivity|]. cbn. auto.
    + apply Nat.eqb_neq in E. rewrite nth_replace_other by exact E. eauto 6.
  - rename pi0 into pi'. destruct (nth_error (w_probs w) pi') as [p0|] eqn:E0; [|cbn; eauto 6].
    destruct (update_v_max t p0) as [p1|] eqn:Eu; cbn; [|eauto 6]. unfold update_v_max in Eu.
    destruct (limit_vector (p_model p0) t) as [v|]; cbn in Eu; [|discriminate]. injection Eu as <-. destruct (Nat.eqb pi' pi) eqn:E.
    + apply Nat.eqb_eq in E. subst pi'. assert (p0 = p) by congruence. subst p0.
      rewrite (nth_replace_same _ _ p _ Hp). eexists. split; [reflexivity|]. cbn. auto.
    + apply Nat.eqb_neq in E. rewrite nth_replace_other by exact E. eauto 6.
Qed.

(** A problem that appears in a step is fresh and empty. *)
Lemma step_new_problem o w pi p' : nth_error (w_probs w) pi = None -> nth_error (w_probs (snd (step o w))) pi = Some p' ->
  p_comps p' = [] /\ exists m lo hi, o = WNewProblem m lo hi /\ new_problem m lo hi = Ok p'.
Proof.
  intros Hn. assert (Hlen : List.length (w_probs w) <= pi) by (now apply nth_error_None).
  assert (Hr : forall i x, nth_error (replace_nth i x (w_probs w)) pi = None).
  { intros i x. apply nth_error_None. now rewrite replace_length. }
  destruct o; cbn [step]; rewrite ?compile_probs; unfold component, task, barrier; rewrite ?lookup_world; try (cbn; congruence).
  - destruct (new_problem m vmin vmax) as [p|] eqn:E; cbn; [|congruence].
    intros H. rewrite nth_error_app2 in H by exact Hlen. destruct (pi - List.length (w_probs w)) as [|k]; cbn in H.
    + injection H as <-. split; [|eauto 6]. unfold new_problem in E. destruct (limit_vector m vmin), (limit_vector m vmax); cbn in E; try discriminate.
      now injection E as <-.
    + destruct k; discriminate.
  - destruct (nth_error (w_comps w) ci); [|cbn; congruence]. destruct (run_cop o c). cbn. congruence.
  - unfold add_component. destruct (nth_error _ pi0); [|cbn; congruence]. destruct (nth_error _ ci); [|cbn; congruence].
    destruct (has_name _ _); [cbn; congruence|]. destruct (update_model _ _) as [[]]; cbn; rewrite ?Hr; congruence.
  - unfold remove_component. destruct (nth_error _ pi0); [|cbn; congruence]. destruct (has_name _ _); cbn; rewrite ?Hr; congruence.
  - destruct (nth_error _ pi0); [|cbn; congruence]. destruct (update_v_min _ _); cbn; rewrite ?Hr; congruence.
  - destruct (nth_error _ pi0); [|cbn; congruence]. destruct (update_v_max _ _); cbn; rewrite ?Hr; congruence.
Qed.

(** Before a problem exists no add to it succeeds. *)
Lemma add_needs_problem pi ci w : nth_error (w_probs w) pi = None -> fst (step (WAdd pi ci) w) = Err TypeError.
Proof. intros H. cbn. unfold add_component. now rewrite H. Qed.

(** A successful addition: the name was new, the component existed. *)
Lemma add_ok pi ci w p o : nth_error (w_probs w) pi = Some p -> fst (step (WAdd pi ci) w) = Ok o ->
  o = ODone /\ exists c, nth_error (w_comps w) ci = Some c /\ ~ In (a_name (c_at c)) (map fst (p_comps p)).
Proof.
  intros Hp. cbn. unfold add_component. rewrite Hp. destruct (nth_error (w_comps w) ci) as [c|]; [|discriminate].
  destruct (has_name (a_name (c_at c)) p) eqn:Eh; [discriminate|].
  destruct (update_model (p_model p) c) as [[u|e] c']; cbn; [|discriminate]. intros H; injection H as <-.
  split; [reflexivity|]. exists c. split; [reflexivity|]. rewrite <- has_name_in. congruence.
Qed.
Lemma add_duplicate pi ci w p c : nth_error (w_probs w) pi = Some p -> nth_error (w_comps w) ci = Some c ->
  In (a_name (c_at c)) (map fst (p_comps p)) -> step (WAdd pi ci) w = (Err ValueError, w).
Proof.
  intros Hp Hc Hn. cbn. unfold add_component. rewrite Hp, Hc. apply has_name_in in Hn. now rewrite Hn.
Qed.

Lemma remove_name_in n l k v : In (k, v) (remove_name n l) <-> In (k, v) l /\ k <> n.
Proof.
  unfold remove_name. rewrite filter_In. cbn. rewrite negb_true_iff, String.eqb_neq. intuition congruence.
Qed.
Lemma remove_name_nodup n l : NoDup (map fst l) -> NoDup (map fst (remove_name n l)).
Proof.
  induction l as [|(k, v) l IH]; cbn; intros H; [constructor|]. inversion H; subst. specialize (IH H3).
  destruct (String.eqb n k); cbn; [exact IH|]. constructor; [|exact IH].
  intros H0. apply H2. apply in_map_iff in H0. destruct H0 as ((k', v') & E & H0). apply remove_name_in in H0.
  apply in_map_iff. exists (k', v'). tauto.
Qed.

(** Order of entries by the call that added them. *)
Definition ranked (pi : nat) (os : list wop) (l : list (string * nat)) : Prop :=
  exists ks, StronglySorted lt ks /\ Forall2 (fun k e => added_at pi os k (fst e) (snd e)) ks l /\
    (forall k n ci, added_at pi os k n ci -> In k ks).

Lemma firstn_snoc {A} k (l : list A) x : k <= List.length l -> firstn k (l ++ [x]) = firstn k l.
Proof. intros H. rewrite firstn_app. replace (k - List.length l) with 0 by lia. cbn. now rewrite app_nil_r. Qed.
Lemma skipn_snoc {A} k (l : list A) x : k <= List.length l -> skipn k (l ++ [x]) = skipn k l ++ [x].
Proof. intros H. rewrite skipn_app. now replace (k - List.length l) with 0 by lia. Qed.

Lemma added_snoc pi os o k n ci : added_at pi (os ++ [o]) k n ci <->
  (added_at pi os k n ci /\ o <> WRemove pi n) \/
  (k = List.length os /\ o = WAdd pi ci /\ fst (step o (state os)) = Ok ODone /\ name_of (state os) ci n).
Proof.
  unfold added_at. split.
  - intros (H1 & H2 & H3 & H4). destruct (Nat.lt_ge_cases k (List.length os)) as [Hk|Hk].
    + left. rewrite nth_error_app1 in H1 by exact Hk. rewrite firstn_snoc in H2, H3 by lia. rewrite skipn_snoc in H4 by lia.
      rewrite in_app_iff in H4. repeat split; auto; try tauto. intros ->. apply H4. right. now left.
    + right. rewrite nth_error_app2 in H1 by exact Hk. destruct (k - List.length os) as [|j] eqn:E; cbn in H1; [|destruct j; discriminate].
      assert (k = List.length os) by lia. subst k. injection H1 as ->.
      rewrite firstn_app, Nat.sub_diag, firstn_all in H2, H3. cbn in H2, H3. rewrite app_nil_r in H2, H3. auto.
  - intros [((H1 & H2 & H3 & H4) & H5)|(-> & -> & H2 & H3)].
    + assert (Hk : k < List.length os) by (apply nth_error_Some; congruence).
      rewrite nth_error_app1, firstn_snoc, skipn_snoc by lia. repeat split; auto.
      rewrite in_app_iff. cbn. intuition.
    + rewrite skipn_all2 by (rewrite app_length; cbn; lia).
      rewrite nth_error_app2, Nat.sub_diag by lia. rewrite firstn_app, Nat.sub_diag, firstn_all. cbn [firstn nth_error]. rewrite app_nil_r.
      repeat split; auto.
Qed.
Lemma added_lt pi os k n ci : added_at pi os k n ci -> k < List.length os.
Proof. intros (H & _). apply nth_error_Some. congruence. Qed.
Lemma added_fun pi os k n ci n' ci' : added_at pi os k n ci -> added_at pi os k n' ci' -> n = n' /\ ci = ci'.
Proof.
  intros (H1 & _ & (c & Hc & Hn) & _) (H1' & _ & (c' & Hc' & Hn') & _).
  assert (ci = ci') by congruence. subst. assert (c = c') by congruence. subst. auto.
Qed.

Lemma sorted_snoc (ks : list nat) k : StronglySorted lt ks -> Forall (fun x => x < k) ks -> StronglySorted lt (ks ++ [k]).
Proof.
  induction ks as [|x ks IH]; cbn; intros Hs Hf; [constructor; constructor|].
  inversion Hs; inversion Hf; subst. constructor; [now apply IH|]. rewrite Forall_app. split; [assumption|]. now constructor.
Qed.
Lemma sorted_filter (f : nat -> bool) ks : StronglySorted lt ks -> StronglySorted lt (filter f ks).
Proof.
  induction 1 as [|x ks Hs IH Hf]; cbn; [constructor|]. destruct (f x); [|exact IH]. constructor; [exact IH|].
  apply Forall_forall. intros y Hy. apply filter_In in Hy. rewrite Forall_forall in Hf. now apply Hf.
Qed.

(** Selecting the entries of [l] kept by a removal, together with their ranks. *)
Fixpoint keep_ranks (n : string) (ks : list nat) (l : list (string * nat)) : list nat :=
  match ks, l with
  | k :: ks', e :: l' => if String.eqb n (fst e) then keep_ranks n ks' l' else k :: keep_ranks n ks' l'
  | _, _ => []
  end.
Lemma keep_ranks_in n ks l k : In k (keep_ranks n ks l) -> In k ks.
Proof.
  revert l. induction ks as [|x ks IH]; intros [|e l]; cbn; try tauto. destruct (String.eqb n (fst e)); cbn; intros H.
  - right. eauto.
  - destruct H as [->|H]; [now left|right; eauto].
Qed.
Lemma keep_ranks_sorted n ks l : StronglySorted lt ks -> StronglySorted lt (keep_ranks n ks l).
Proof.
  revert l. induction ks as [|x ks IH]; intros [|e l] H; cbn; try constructor. inversion H; subst.
  destruct (String.eqb n (fst e)); [now apply IH|]. constructor; [now apply IH|].
  apply Forall_forall. intros y Hy. apply keep_ranks_in in Hy. rewrite Forall_forall in H3. now apply H3.
Qed.

Lemma ranked_other pi os o l : ranked pi os l -> (forall n, o <> WRemove pi n) -> (forall ci, o = WAdd pi ci -> fst (step o (state os)) <> Ok ODone) ->
  ranked pi (os ++ [o]) l.
Proof.
  intros (ks & Hs & Hf & Hc) Hr Ha. exists ks. split; [exact Hs|]. split.
  - eapply Forall2_impl; [|exact Hf]. intros k e H. apply added_snoc. left. split; [exact H|apply Hr].
  - intros k n ci H. apply added_snoc in H. destruct H as [[H _]|(-> & Ho & Hst & _)]; [eauto|].
    exfalso. eapply Ha; eauto.
Qed.

Lemma add_ok_done pi ci w o : fst (step (WAdd pi ci) w) = Ok o -> o = ODone.
Proof.
  destruct (nth_error (w_probs w) pi) as [p|] eqn:E; [|rewrite add_needs_problem by exact E; discriminate].
  intros H. now destruct (add_ok _ _ _ _ _ E H).
Qed.

Theorem contents os pi :
  match nth_error (w_probs (state os)) pi with
  | Some p => ranked pi os (p_comps p) /\ NoDup (map fst (p_comps p))
  | None => forall k n ci, ~ added_at pi os k n ci
  end.
Proof.
  induction os as [|o os IH] using rev_ind.
  - cbn. destruct pi; cbn; intros k n ci (H & _); destruct k; discriminate.
  - unfold state in *. rewrite run_snoc. set (w := run os empty_world) in *.
    destruct (nth_error (w_probs w) pi) as [p|] eqn:Ep.
    + destruct (step_problem o w pi p Ep) as (p' & Ep' & Hm & Hl & _). rewrite Ep'. rewrite Hl.
      destruct IH as (Hr & Hn). destruct o; cbn [add_effect] in *;
       try (split; [apply ranked_other; [exact Hr|intros; discriminate|intros; discriminate]|exact Hn]).
      * rename pi0 into pi'. destruct (Nat.eqb pi' pi) eqn:E.
        -- apply Nat.eqb_eq in E. subst pi'. destruct (fst (step (WAdd pi ci) w)) as [r|e] eqn:Es.
           ++ destruct (add_ok _ _ _ _ _ Ep Es) as (-> & c & Hc & Hnew). rewrite Hc. split.
              ** destruct Hr as (ks & Hs & Hf & Hcpl). exists (ks ++ [List.length os]). split; [|split].
                 { apply sorted_snoc; [exact Hs|]. apply Forall_forall. intros k Hk.
                   clear -Hf Hk. induction Hf as [|k0 e ks l H _ IH]; [destruct Hk|].
                   destruct Hk as [->|Hk]; [now apply added_lt in H|auto]. }
                 { apply Forall2_app.
                   - eapply Forall2_impl; [|exact Hf]. intros k e H. apply added_snoc. left. split; [exact H|discriminate].
                   - constructor; [|constructor]. apply added_snoc. right. split; [reflexivity|]. split; [reflexivity|].
                     split; [exact Es|]. exists c. now split. }
                 { intros k n ci' H. apply in_app_iff. apply added_snoc in H. destruct H as [[H _]|(-> & _)]; [left; eauto|right; now left]. }
              ** rewrite map_app. cbn. apply Permutation_NoDup with (a_name (c_at c) :: map fst (p_comps p)); [|now constructor].
                 change (a_name (c_at c) :: map fst (p_comps p)) with ([a_name (c_at c)] ++ map fst (p_comps p)). apply Permutation_app_comm.
           ++ split; [|exact Hn]. apply ranked_other; [exact Hr|intros; discriminate|]. intros ci' H. injection H as <-.
              unfold state. fold w. rewrite Es. discriminate.
        -- apply Nat.eqb_neq in E. split; [|exact Hn]. apply ranked_other; [exact Hr|intros; discriminate|].
           intros ci' H. injection H as H _. congruence.
      * rename pi0 into pi'. destruct (Nat.eqb pi' pi) eqn:E.
        -- apply Nat.eqb_eq in E. subst pi'. split; [|now apply remove_name_nodup].
           destruct Hr as (ks & Hs & Hf & Hcpl). exists (keep_ranks n ks (p_comps p)).
           split; [now apply keep_ranks_sorted|]. clear Hs Hn Hl. split.
           ++ clear Hcpl. induction Hf as [|k e ks l H Hf IH]; cbn; [constructor|].
              destruct (String.eqb n (fst e)) eqn:En; cbn; [exact IH|]. constructor; [|exact IH].
              apply added_snoc. left. split; [exact H|]. apply String.eqb_neq in En. congruence.
           ++ intros k n' ci H. apply added_snoc in H. destruct H as [[H Hne]|(_ & Ho & _)]; [|discriminate].
              assert (Hnn : n <> n') by congruence. pose proof (Hcpl _ _ _ H) as Hk. clear Hcpl Hne.
              induction Hf as [|k0 e ks l H0 Hf IH]; cbn in *; [destruct Hk|]. destruct Hk as [->|Hk].
              ** destruct (added_fun _ _ _ _ _ _ _ H H0) as [-> _]. apply String.eqb_neq in Hnn. rewrite Hnn. now left.
              ** destruct (String.eqb n (fst e)); [auto|right; auto].
        -- apply Nat.eqb_neq in E. split; [|exact Hn]. apply ranked_other; [exact Hr| |intros; discriminate].
           intros n' H. injection H as H _. congruence.
    + destruct (nth_error (w_probs (snd (step o w))) pi) as [p'|] eqn:Ep'.
      * destruct (step_new_problem _ _ _ _ Ep Ep') as (H0 & m & lo & hi & -> & _). rewrite H0. split; [|constructor].
        exists []. split; [constructor|]. split; [constructor|]. intros k n ci H. apply added_snoc in H.
        destruct H as [[H _]|(_ & H & _)]; [now apply IH in H|discriminate].
      * intros k n ci H. apply added_snoc in H. destruct H as [[H _]|(_ & -> & H & _)]; [now apply IH in H|].
        unfold state in H. fold w in H. rewrite add_needs_problem in H by exact Ep. discriminate.
Qed.

(** ** Velocity limits *)
Lemma limit_vector_ok m t v : wf_tensor t -> limit_vector m t = Ok v ->
  List.length v = m_nv m /\
  ((exists x, t = mkT [] [x] /\ v = repeat x (m_nv m)) \/ (t_shape t = [m_nv m] /\ v = t_data t)).
Proof.
  intros Hw. unfold limit_vector, ndim. destruct (t_shape t) as [|n [|]] eqn:Es; cbn; try discriminate.
  - destruct (wf_scalar t Hw Es) as (x & ->). cbn. intros H; injection H as <-. split; [apply repeat_length|]. left. eauto.
  - destruct (Nat.eqb n (m_nv m)) eqn:En; [|discriminate]. apply Nat.eqb_eq in En. subst n. intros H; injection H as <-.
    split; [now apply wf_vector|right; auto].
Qed.
Lemma limit_vector_err m t : wf_tensor t -> (exists v, limit_vector m t = Ok v) \/ limit_vector m t = Err ValueError.
Proof.
  intros Hw. unfold limit_vector, ndim. destruct (t_shape t) as [|n [|]] eqn:Es; cbn; auto.
  - destruct (wf_scalar t Hw Es) as (x & ->). cbn. eauto.
  - destruct (Nat.eqb n (m_nv m)); eauto.
Qed.
Lemma limit_vector_complete m t v : 
  ((exists x, t = mkT [] [x] /\ v = repeat x (m_nv m)) \/ (t_shape t = [m_nv m] /\ v = t_data t)) -> limit_vector m t = Ok v.
Proof.
  unfold limit_vector, ndim. intros [(x & -> & ->)|[-> ->]]; cbn; [reflexivity|]. now rewrite Nat.eqb_refl.
Qed.

Definition lims_ok (p : prob) : Prop := List.length (p_vmin p) = m_nv (p_model p) /\ List.length (p_vmax p) = m_nv (p_model p).
Lemma limits_step o w : wf_wop o -> Forall lims_ok (w_probs w) -> Forall lims_ok (w_probs (snd (step o w))).
Proof.
  intros Hw H. apply Forall_forall. intros p' Hin. apply In_nth_error in Hin. destruct Hin as [pi Hpi].
  destruct (nth_error (w_probs w) pi) as [p|] eqn:Ep.
  - destruct (step_problem o w pi p Ep) as (p2 & E2 & Hm & _ & Hv). assert (p2 = p') by congruence. subst p2.
    assert (Hp : lims_ok p) by (rewrite Forall_forall in H; apply H; eapply nth_error_In; eauto).
    destruct o; try (unfold lims_ok in *; destruct Hv as [-> ->]; rewrite Hm; exact Hp).
    + cbn [step] in Hpi. rename pi0 into pi'. destruct (nth_error (w_probs w) pi') as [p0|] eqn:E0; [|cbn in Hpi; congruence].
      destruct (update_v_min t p0) as [p1|] eqn:Eu; cbn in Hpi; [|congruence].
      destruct (Nat.eq_dec pi' pi) as [->|Hne]; [|rewrite nth_replace_other in Hpi by exact Hne; congruence].
      rewrite (nth_replace_same _ _ p _ Ep) in Hpi. injection Hpi as <-. assert (p0 = p) by congruence. subst.
      unfold update_v_min in Eu. destruct (limit_vector (p_model p) t) as [v|] eqn:El; cbn in Eu; [|discriminate]. injection Eu as <-.
      apply limit_vector_ok in El; [|exact Hw]. split; [apply El|apply Hp].
    + cbn [step] in Hpi. rename pi0 into pi'. destruct (nth_error (w_probs w) pi') as [p0|] eqn:E0; [|cbn in Hpi; congruence].
      destruct (update_v_max t p0) as [p1|] eqn:Eu; cbn in Hpi; [|congruence].
      destruct (Nat.eq_dec pi' pi) as [->|Hne]; [|rewrite nth_replace_other in Hpi by exact Hne; congruence].
      rewrite (nth_replace_same _ _ p _ Ep) in Hpi. injection Hpi as <-. assert (p0 = p) by congruence. subst.
      unfold update_v_max in Eu. destruct (limit_vector (p_model p) t) as [v|] eqn:El; cbn in Eu; [|discriminate]. injection Eu as <-.
      apply limit_vector_ok in El; [|exact Hw]. split; [apply Hp|apply El].
  - destruct (step_new_problem _ _ _ _ Ep Hpi) as (_ & m & lo & hi & -> & Hn). destruct Hw as [Hw1 Hw2].
    unfold new_problem in Hn. destruct (limit_vector m lo) as [v|] eqn:E1; cbn in Hn; [|discriminate].
    destruct (limit_vector m hi) as [v'|] eqn:E2; cbn in Hn; [|discriminate]. injection Hn as <-.
    split; cbn; [eapply (limit_vector_ok m lo); eauto|eapply (limit_vector_ok m hi); eauto].
Qed.
Lemma limits_always os : Forall wf_wop os -> Forall lims_ok (w_probs (state os)).
Proof.
  unfold state. assert (G : forall w, Forall wf_wop os -> Forall lims_ok (w_probs w) -> Forall lims_ok (w_probs (run os w))).
  { induction os as [|o os IH]; intros w Ho Hw; [exact Hw|]. inversion Ho; subst. cbn. apply IH; [assumption|]. now apply limits_step. }
  intros Ho. apply G; [exact Ho|constructor].
Qed.

(** ** Components of a world *)
Lemma reachable_after o c : reachable c -> reachable (after o c).
Proof. intros (c0 & os & H & ->). exists c0, (os ++ [o]). split; [exact H|]. unfold history. now rewrite fold_left_app. Qed.
Lemma reachable_jax c : reachable c -> reachable (snd (jax_component c)).
Proof.
  intros H. replace (snd (jax_component c)) with (after OpReadJax c); [now apply reachable_after|].
  unfold after, run_cop, ignore, mbind. now destruct (jax_component c) as [[]].
Qed.
Lemma reachable_bind m c : reachable c -> reachable (snd (update_model m c)).
Proof. intros H. change (snd (update_model m c)) with (after (OpModel m) c). now apply reachable_after. Qed.

Lemma Forall_replace {A} (P : A -> Prop) i x l : P x -> Forall P l -> Forall P (replace_nth i x l).
Proof. intros Hx H. revert i. induction H; intros [|i]; cbn; auto. Qed.

Lemma compile_all_reach l : forall cs, Forall reachable cs -> Forall reachable (snd (compile_all l cs)).
Proof.
  induction l as [|(n, i) l IH]; intros cs H; cbn [compile_all]; [exact H|].
  destruct (nth_error cs i) as [c|] eqn:E; [|exact H].
  assert (Hc : reachable c) by (rewrite Forall_forall in H; apply H; eapply nth_error_In; eauto).
  pose proof (reachable_jax c Hc) as Hj. destruct (jax_component c) as [[j|e] c'] eqn:Ej; cbn in *.
  - specialize (IH (replace_nth i c' cs) (Forall_replace _ _ _ _ Hj H)).
    destruct (compile_all l (replace_nth i c' cs)) as [[js|e] cs']; exact IH.
  - now apply Forall_replace.
Qed.
Lemma step_reach o w : legal o -> Forall reachable (w_comps w) -> Forall reachable (w_comps (snd (step o w))).
Proof.
  intros Hl H. destruct o; cbn [step]; unfold component, task, barrier; rewrite ?lookup_world; try exact H.
  - cbn. rewrite Forall_app. split; [exact H|]. constructor; [|constructor]. exists c, []. now split.
  - destruct (new_problem m vmin vmax); exact H.
  - destruct (nth_error (w_comps w) ci) as [c|] eqn:E; [|exact H].
    assert (Hc : reachable c) by (rewrite Forall_forall in H; apply H; eapply nth_error_In; eauto).
    pose proof (reachable_after o c Hc) as Ha. unfold after in Ha. destruct (run_cop o c) as [r c']. cbn in *. now apply Forall_replace.
  - unfold add_component. destruct (nth_error _ _) as [p|]; [|exact H]. destruct (nth_error (w_comps w) ci) as [c|] eqn:E; [|exact H].
    destruct (has_name _ _); [exact H|].
    assert (Hc : reachable c) by (rewrite Forall_forall in H; apply H; eapply nth_error_In; eauto).
    pose proof (reachable_bind (p_model p) c Hc) as Ha. destruct (update_model (p_model p) c) as [[]]; cbn in *; now apply Forall_replace.
  - unfold remove_component. destruct (nth_error _ _); [|exact H]. destruct (has_name _ _); exact H.
  - destruct (nth_error _ _); [|exact H]. destruct (update_v_min _ _); exact H.
  - destruct (nth_error _ _); [|exact H]. destruct (update_v_max _ _); exact H.
  - unfold compile. destruct (nth_error _ _) as [p|]; [|exact H]. pose proof (compile_all_reach (p_comps p) _ H) as Hc.
    destruct (compile_all _ _) as [[]]; exact Hc.
Qed.
Lemma reach_always os : Forall legal os -> Forall reachable (w_comps (state os)).
Proof.
  unfold state. assert (G : forall w, Forall legal os -> Forall reachable (w_comps w) -> Forall reachable (w_comps (run os w))).
  { induction os as [|o os IH]; intros w Ho Hw; [exact Hw|]. inversion Ho; subst. cbn. apply IH; [assumption|]. now apply step_reach. }
  intros Ho. apply G; [exact Ho|constructor].
Qed.

(** Component ids stored in problems are valid. *)
Lemma comps_grow o w : List.length (w_comps w) <= List.length (w_comps (snd (step o w))).
Proof.
  destruct o; cbn [step]; unfold component, task, barrier; rewrite ?lookup_world; try lia.
  - cbn. rewrite app_length. lia.
  - destruct (new_problem m vmin vmax); cbn; lia.
  - destruct (nth_error _ _) as [c|]; [|cbn; lia]. destruct (run_cop o c). cbn. rewrite replace_length. lia.
  - unfold add_component. destruct (nth_error _ _); [|cbn; lia]. destruct (nth_error _ _); [|cbn; lia].
    destruct (has_name _ _); [cbn; lia|]. destruct (update_model _ _) as [[]]; cbn; rewrite replace_length; lia.
  - unfold remove_component. destruct (nth_error _ _); [|cbn; lia]. destruct (has_name _ _); cbn; lia.
  - destruct (nth_error _ _); [|cbn; lia]. destruct (update_v_min _ _); cbn; lia.
  - destruct (nth_error _ _); [|cbn; lia]. destruct (update_v_max _ _); cbn; lia.
  - unfold compile. destruct (nth_error _ _) as [p|]; [|cbn; lia].
    assert (G : forall l cs, List.length (snd (compile_all l cs)) = List.length cs).
    { induction l as [|(n, i) l IH]; intros cs; cbn [compile_all]; [reflexivity|]. destruct (nth_error cs i); [|reflexivity].
      destruct (jax_component c) as [[j|e] c']; cbn; [|apply replace_length].
      specialize (IH (replace_nth i c' cs)). destruct (compile_all _ _) as [[]]; cbn in *; rewrite IH; apply replace_length. }
    specialize (G (p_comps p) (w_comps w)). destruct (compile_all _ _) as [[]]; cbn in *; lia.
Qed.
Definition ids_ok (w : world) : Prop := forall pi p n i, problem_of w pi p -> In (n, i) (p_comps p) -> i < List.length (w_comps w).
Lemma ids_step o w : ids_ok w -> ids_ok (snd (step o w)).
Proof.
  intros H pi p' n i Hp Hin. unfold problem_of in Hp. pose proof (comps_grow o w) as Hg.
  destruct (nth_error (w_probs w) pi) as [p|] eqn:Ep.
  - destruct (step_problem o w pi p Ep) as (p2 & E2 & _ & Hl & _). assert (p2 = p') by congruence. subst p2. rewrite Hl in Hin.
    assert (K : In (n, i) (p_comps p) -> i < List.length (w_comps (snd (step o w)))).
    { intros Hi. specialize (H _ _ _ _ Ep Hi). lia. }
    destruct o; cbn [add_effect] in Hin; try exact (K Hin).
    + destruct (Nat.eqb pi0 pi); [|auto]. destruct (fst (step _ _)); [|auto].
      destruct (nth_error (w_comps w) ci) eqn:Ec; [|auto]. apply in_app_iff in Hin. destruct Hin as [Hin|[Hin|[]]]; [auto|].
      injection Hin as _ <-. assert (ci < List.length (w_comps w)) by (apply nth_error_Some; congruence). lia.
    + destruct (Nat.eqb pi0 pi); [|auto]. apply remove_name_in in Hin. apply K. tauto.
  - destruct (step_new_problem _ _ _ _ Ep Hp) as (H0 & _). rewrite H0 in Hin. destruct Hin.
Qed.
Lemma ids_always os : ids_ok (state os).
Proof.
  unfold state. assert (G : forall w, ids_ok w -> ids_ok (run os w)).
  { induction os as [|o os IH]; intros w Hw; [exact Hw|]. cbn. apply IH. now apply ids_step. }
  apply G. intros pi p n i H. unfold problem_of in H. cbn in H. destruct pi; discriminate.
Qed.

(** ** Lookup *)
Lemma assoc_in {A} n (l : list (string * A)) v : NoDup (map fst l) -> (assoc n l = Some v <-> In (n, v) l).
Proof.
  induction l as [|(k, x) l IH]; cbn; intros Hn; [split; [discriminate|tauto]|]. inversion Hn; subst.
  destruct (String.eqb n k) eqn:E.
  - apply String.eqb_eq in E. subst k. split; [intros H; injection H as ->; now left|].
    intros [H|H]; [now injection H as ->|]. exfalso. apply H1. apply in_map_iff. exists (n, v). auto.
  - apply String.eqb_neq in E. rewrite IH by assumption. split; [now right|]. intros [H|H]; [congruence|exact H].
Qed.
Lemma assoc_none {A} n (l : list (string * A)) : assoc n l = None -> forall v, ~ In (n, v) l.
Proof.
  induction l as [|(k, x) l IH]; cbn; intros H v; [tauto|]. destruct (String.eqb n k) eqn:E; [discriminate|].
  apply String.eqb_neq in E. intros [H0|H0]; [congruence|]. now apply (IH H v).
Qed.
Lemma lookup_spec f os pi p n : problem_of (state os) pi p ->
  let r := fst (lookup f pi n (state os)) in
  (forall i, r = Ok (ORef i) <-> In (n, i) (p_comps p) /\ exists c, nth_error (w_comps (state os)) i = Some c /\ f c = true) /\
  ((exists i, r = Ok (ORef i)) \/ r = Err ValueError).
Proof.
  intros Hp r. pose proof (contents os pi) as Hc. unfold problem_of in Hp. rewrite Hp in Hc. destruct Hc as [_ Hn].
  subst r. unfold lookup. rewrite Hp. destruct (assoc n (p_comps p)) as [i|] eqn:Ea.
  - apply assoc_in in Ea; [|exact Hn]. pose proof (ids_always os pi p n i Hp Ea) as Hi.
    destruct (nth_error (w_comps (state os)) i) as [c|] eqn:Ei; [|apply nth_error_None in Ei; lia].
    assert (Hu : forall j, In (n, j) (p_comps p) -> j = i).
    { intros j Hj. apply assoc_in in Ea, Hj; auto. congruence. }
    destruct (f c) eqn:Ef; cbn; (split; [|eauto]).
    + intros j. split; [intros H; injection H as <-; eauto|]. intros [Hj _]. now rewrite (Hu j Hj).
    + intros j. split; [discriminate|]. intros [Hj (c' & Hc' & Hf)]. rewrite (Hu j Hj) in Hc'. congruence.
  - cbn. split; [|auto]. intros i. split; [discriminate|]. intros [H _]. exfalso. now apply (assoc_none _ _ Ea i).
Qed.

(** ** Compile *)
Lemma same_public_refl c : same_public c c.
Proof. now apply same_public_at. Qed.
Lemma same_public_trans a b c : same_public a b -> same_public b c -> same_public a c.
Proof. unfold same_public. intuition congruence. Qed.

(** Reading a component changes neither what it nor what any other compiles to. *)
Definition alike (c c' : comp) : Prop :=
  same_public c c' /\ fst (jax_component c') = fst (jax_component c) /\ reachable c'.
Lemma alike_refl c : reachable c -> alike c c.
Proof. intros H. split; [apply same_public_refl|]. auto. Qed.
Lemma alike_trans a b c : alike a b -> alike b c -> alike a c.
Proof. intros (H1 & H2 & H3) (K1 & K2 & K3). split; [eapply same_public_trans; eauto|]. split; [congruence|exact K3]. Qed.
Lemma alike_jax c : reachable c -> alike c (snd (jax_component c)).
Proof.
  intros H. destruct (read_effect c H) as (H1 & H2 & _). split; [exact H2|]. split; [exact H1|]. now apply reachable_jax.
Qed.

Lemma Forall2_replace {A} (R : A -> A -> Prop) i x l : (forall y, In y l -> R y y) ->
  (forall y, nth_error l i = Some y -> R y x) -> Forall2 R l (replace_nth i x l).
Proof.
  revert i. induction l as [|z l IH]; intros i Hr Hx; [destruct i; constructor|]. destruct i as [|i]; cbn.
  - constructor; [now apply Hx|]. clear -Hr. induction l as [|w l IH]; constructor; [apply Hr; cbn; auto|]. apply IH. intros y Hy. apply Hr. cbn in *. tauto.
  - constructor; [apply Hr; now left|]. apply IH; [intros y Hy; apply Hr; now right|exact Hx].
Qed.
Lemma Forall2_trans {A} (R : A -> A -> Prop) l1 l2 l3 : (forall a b c, R a b -> R b c -> R a c) ->
  Forall2 R l1 l2 -> Forall2 R l2 l3 -> Forall2 R l1 l3.
Proof. intros Ht H. revert l3. induction H; intros l3 H3; inversion H3; subst; constructor; eauto. Qed.
Lemma Forall2_nth {A B} (R : A -> B -> Prop) l l' i a : Forall2 R l l' -> nth_error l i = Some a -> exists b, nth_error l' i = Some b /\ R a b.
Proof. intros H. revert i. induction H; intros [|i] E; cbn in *; try discriminate; [injection E as <-; eauto|eauto]. Qed.
Lemma Forall2_refl_in {A} (R : A -> A -> Prop) l : Forall (fun a => R a a) l -> Forall2 R l l.
Proof. induction 1; constructor; auto. Qed.

(** Specification of [compile_all]. *)
Definition entry_ok (cs : list comp) (e : string * nat) (r : string * jaxc) : Prop :=
  fst r = fst e /\ exists c, nth_error cs (snd e) = Some c /\ fst (jax_component c) = Ok (snd r).
Lemma entry_ok_alike cs cs' e r : Forall2 alike cs cs' -> (entry_ok cs' e r <-> entry_ok cs e r).
Proof.
  intros H. unfold entry_ok. split; intros [H1 (c & H2 & H3)]; (split; [exact H1|]).
  - assert (Hl : snd e < List.length cs) by (rewrite (Forall2_length _ _ _ H); apply nth_error_Some; congruence).
    destruct (nth_error cs (snd e)) as [c0|] eqn:E; [|apply nth_error_None in E; lia].
    destruct (Forall2_nth _ _ _ _ _ H E) as (c1 & E1 & _ & Ha & _). exists c0. split; [reflexivity|]. congruence.
  - destruct (Forall2_nth _ _ _ _ _ H H2) as (c1 & E1 & _ & Ha & _). exists c1. split; [exact E1|]. congruence.
Qed.

Lemma compile_all_spec l : forall cs, Forall reachable cs -> (forall n i, In (n, i) l -> i < List.length cs) ->
  Forall2 alike cs (snd (compile_all l cs)) /\
  match fst (compile_all l cs) with
  | Ok js => Forall2 (entry_ok cs) l js
  | Err e => exists n i c, In (n, i) l /\ nth_error cs i = Some c /\ fst (jax_component c) = Err e
  end.
Proof.
  induction l as [|(n, i) l IH]; intros cs Hr Hi; cbn [compile_all].
  - split; [|constructor]. apply Forall2_refl_in. eapply Forall_impl; [|exact Hr]. intros. now apply alike_refl.
  - assert (Hlt : i < List.length cs) by (eapply Hi; now left).
    destruct (nth_error cs i) as [c|] eqn:E; [|apply nth_error_None in E; lia].
    assert (Hc : reachable c) by (rewrite Forall_forall in Hr; apply Hr; eapply nth_error_In; eauto).
    pose proof (alike_jax c Hc) as Ha. destruct (jax_component c) as [[j|e] c'] eqn:Ej; cbn [snd] in Ha.
    + assert (H1 : Forall2 alike cs (replace_nth i c' cs)).
      { apply Forall2_replace; [|intros y Hy; congruence]. intros y Hy. apply alike_refl. rewrite Forall_forall in Hr. auto. }
      assert (Hr' : Forall reachable (replace_nth i c' cs)) by (apply Forall_replace; [apply Ha|exact Hr]).
      destruct (IH (replace_nth i c' cs) Hr') as [I1 I2].
      { intros n' i' H'. rewrite replace_length. eapply Hi. right. exact H'. }
      destruct (compile_all l (replace_nth i c' cs)) as [[js|e] cs'] eqn:Ec; cbn [fst snd] in *.
      * split; [eapply Forall2_trans; [apply alike_trans|exact H1|exact I1]|]. constructor.
        -- split; [reflexivity|]. exists c. split; [exact E|]. cbn. now rewrite Ej.
        -- eapply Forall2_impl; [|exact I2]. intros x r H. exact (proj1 (entry_ok_alike _ _ x r H1) H).
      * split; [eapply Forall2_trans; [apply alike_trans|exact H1|exact I1]|].
        destruct I2 as (n' & i' & c1 & Hin & Hn & He). 
        assert (Hl : i' < List.length cs) by (eapply Hi; right; exact Hin).
        destruct (nth_error cs i') as [c0|] eqn:E0; [|apply nth_error_None in E0; lia].
        destruct (Forall2_nth _ _ _ _ _ H1 E0) as (c2 & E2 & _ & Hj & _). exists n', i', c0. split; [now right|]. split; [exact E0|]. congruence.
    + cbn. split.
      * apply Forall2_replace; [|intros y Hy; congruence]. intros y Hy. apply alike_refl. rewrite Forall_forall in Hr. auto.
      * exists n, i, c. split; [now left|]. split; [exact E|]. now rewrite Ej.
Qed.
