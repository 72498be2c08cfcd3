(** The modified flag. *)
From Verif Require Import Base Lin LinFacts Mjx Typing Component SpecComponent ComponentFacts ComponentFacts2 SpecHistory SpecSettings SettingFacts SettingThms Read SpecRead ReadFacts ReadFacts2 ReadFacts3.
Open Scope nat_scope.
#[local] Arguments Nat.ltb : simpl never.
#[local] Arguments Nat.eqb : simpl never.
#[local] Arguments build_component : simpl never.
#[local] Arguments zrange : simpl never.
#[local] Arguments Z.eqb : simpl never.
#[local] Arguments force_mask : simpl never.
#[local] Arguments update_model_obj : simpl never.
#[local] Arguments update_model_joint_task : simpl never.
#[local] Arguments update_model_joint_barrier : simpl never.
#[local] Arguments update_model_self : simpl never.
#[local] Arguments update_model_equality : simpl never.

Definition dirties {A} (m : M A) : Prop := forall c, c_modified (snd (m c)) = true.
Lemma d_bind A B (m : M A) (f : A -> M B) : dirties m -> (forall a, tracks (f a)) -> dirties (mbind m f).
Proof.
  intros H F c. unfold mbind. specialize (H c). destruct (m c) as [[a|e] c']; cbn in *; [|exact H].
  destruct (F a c') as [->|E]; [exact H|exact E].
Qed.
Lemma d_seq A B (m : M A) (m' : M B) : dirties m -> tracks m' -> dirties (mseq m m').
Proof. intros. now apply d_bind. Qed.
Lemma d_seta f : dirties (seta f). Proof. intro; reflexivity. Qed.
Lemma d_bjm m f : dirties (bind_joint_masks m f).
Proof. unfold bind_joint_masks. apply d_seq; [apply d_seta|]. trk. Qed.
Lemma d_model m : dirties (update_model m).
Proof.
  intros c. unfold update_model. unfold mbind at 1. unfold read at 1.
  destruct (a_ext (c_at c)) as [? ? []|? []|? ? ? []]; cbn; try reflexivity; revert c;
  match goal with |- forall c, c_modified (snd (?m c)) = true => change (dirties m) end;
  unfold update_model_obj, update_model_joint_task, update_model_joint_barrier, update_model_self, update_model_equality.
  all: first [apply d_bind; [apply d_bjm|intros]|apply d_seq; [apply d_seta|]]; trk; try apply tracks_q; try apply tracks_qmin; try apply tracks_qmax.
Qed.

(** A clean component has its mask. *)
Definition clean (c : comp) : Prop := Inv c /\ (c_modified c = false -> a_mask (c_at c) <> None).
Lemma tracks_clean A (m : M A) c : tracks m -> clean c -> Inv (snd (m c)) -> clean (snd (m c)).
Proof. intros T [HI H] HI'. split; [exact HI'|]. destruct (T c) as [->|E]; [exact H|]. congruence. Qed.
Lemma tracks_call o : is_call o -> tracks (run_cop o).
Proof.
  destruct o; cbn; intros H; try destruct H; auto using tracks_update_gain, tracks_update_cost, tracks_com, tracks_pos, tracks_frame, tracks_q, tracks_pmin, tracks_pmax, tracks_qmin, tracks_qmax, tracks_update_model.
Qed.
Lemma clean_call o c : is_call o -> clean c -> clean (use_once c (Do o)).
Proof. intros Ho Hc. apply (tracks_clean _ (run_cop o)); [now apply tracks_call|exact Hc|]. apply do_Inv, Hc. Qed.
Lemma jax_clean c : clean c -> a_mask (c_at (snd (jax_component c))) <> None \/ c_modified (snd (jax_component c)) = true.
Proof.
  intros [HI H]. unfold jax_component, mbind, read, raise. cbn.
  destruct (a_model (c_at c)); cbn; [|destruct (c_modified c); auto].
  destruct (a_dim (c_at c) =? -1)%Z; cbn; [destruct (c_modified c); auto|].
  destruct (c_modified c) eqn:Hm.
  - destruct (build_eq c) as (E1 & E2 & _ & E4). destruct (build_component c) as [[j|e] c'] eqn:B; cbn in *.
    + left. destruct (forced_mask _ _ (E2 j (eq_sym E1))) as [l ->]. discriminate.
    + right. destruct E4 as [->|E4]; assumption.
  - destruct (HI Hm) as (j & -> & _). left. auto.
Qed.
Lemma clean_look x c : clean c -> clean (use_once c (Look x)).
Proof.
  intros Hc. pose proof (look_Inv x c (proj1 Hc)) as HI. split; [exact HI|].
  unfold use_once, run_use in *. rewrite ignore_snd in *. destruct x; cbn [get] in *; try (cbn; apply Hc); rewrite via_snd in *.
  - apply (tracks_clean _ mask c tracks_mask Hc HI).
  - apply (tracks_clean _ mask_idxs c tracks_mask_idxs Hc HI).
  - intros E. destruct (jax_clean c Hc) as [?|?]; congruence.
Qed.
Lemma clean_uses us : forall c, Forall public us -> clean c -> clean (uses us c).
Proof.
  induction us as [|[o|x] us IH]; intros c H Hc; [exact Hc|..]; apply Forall_cons_iff in H; destruct H as [H1 H2]; cbn [uses fold_left]; apply (IH _ H2); [now apply clean_call|now apply clean_look].
Qed.
Lemma clean_new c : constructed c -> clean c.
Proof. intros H. split; [now apply constructed_Inv|]. rewrite (constructed_modified c H). discriminate. Qed.

(** ** Looking at an unmodified component *)
Lemma mask_same c : a_mask (c_at c) <> None -> snd (mask c) = c.
Proof.
  intros H. unfold mask, mseq, mbind. rewrite force_eq.
  destruct (forced (c_at c)); cbn; [|reflexivity]. destruct (a_mask (c_at c)); [reflexivity|congruence].
Qed.
Lemma idxs_same c : a_mask (c_at c) <> None -> snd (mask_idxs c) = c.
Proof.
  intros H. unfold mask_idxs, mseq, mbind. rewrite force_eq.
  destruct (forced (c_at c)); cbn; [|reflexivity]. destruct (a_mask (c_at c)); [reflexivity|congruence].
Qed.
Lemma look_same x c : clean c -> c_modified c = false -> use_once c (Look x) = c.
Proof.
  intros [HI H] E. specialize (H E). unfold use_once, run_use. rewrite ignore_snd. destruct x; cbn [get]; try reflexivity; rewrite via_snd.
  - now apply mask_same.
  - now apply idxs_same.
  - destruct (HI E) as (j & Hc & _). unfold jax_component, mbind, read, raise. cbn.
    destruct (a_model (c_at c)); cbn; [|reflexivity]. destruct (a_dim (c_at c) =? -1)%Z; cbn; [reflexivity|]. now rewrite E, Hc.
Qed.

(** ** Calls on an unmodified component *)
Definition keeps_quiet (o : cop) (c : comp) : Prop :=
  match o with OpModel _ => False | _ => is_ok (fst (run_cop o c)) = false \/ ignored c o end.
Ltac plain_case c E := unfold after; cbn [run_cop]; unfold update_gain, update_cost, update_target_com, update_target_pos, update_target_frame, update_target_q, update_q_min, update_q_max, mbind, read, lift, raise, ret; cbn;
  repeat (match goal with |- context [match ?x with _ => _ end] => match x with context [match _ with _ => _ end] => fail 1 | _ => destruct x eqn:? end end; cbn);
  split; intros X; try discriminate X; try (left; reflexivity); try exact E; try reflexivity; destruct X as [X|[(n & ty & t0 & X & Y)|(n & ty & t0 & X & Y)]]; discriminate.
Lemma quiet_call o c : is_call o -> clean c -> c_modified c = false ->
  (c_modified (after o c) = false <-> keeps_quiet o c) /\ (keeps_quiet o c -> after o c = c).
Proof.
  intros Ho [HI Hm] E. specialize (Hm E).
  assert (P : c_modified (after o c) = false -> after o c = c).
  { intros X. unfold after in *. destruct (tracks_call o Ho c) as [Y|Y]; [exact Y|congruence]. }
  enough (Q : c_modified (after o c) = false <-> keeps_quiet o c) by (split; [exact Q|intros X; apply P, Q, X]). clear P.
  destruct o; cbn [keeps_quiet]; try destruct Ho; try (plain_case c E; fail).
  - unfold after. cbn [run_cop]. rewrite d_model. split; [discriminate|tauto].
  - unfold after. cbn [run_cop]. unfold ignored, class_of, update_p_min. unfold mbind at 1 2. unfold read at 1 2. cbn.
    destruct (a_ext (c_at c)) as [? ? []|s [p| | |]|? ? ? []]; try (cbn; split; [intros _; now left|intros _; exact E]).
    destruct (a_mask (c_at c)) as [k|] eqn:Ek; [|congruence].
    unfold mbind. rewrite (read_idxs c k Ek).
    destruct (Nat.eqb (ndim t) 0); unfold lift, ret, raise; cbn.
    + destruct (scalar_of t); cbn; [|split; [intros _; now left|intros _; exact E]].
      destruct (pb_lt p); cbn; (split; [intros X; try discriminate X|]).
      all: try (intros [X|[(? & ? & ? & X & _)|(? & ? & ? & _ & X)]]; congruence).
      right. left. eauto.
    + destruct (last_dim_neq t _) as [[]|]; cbn; try (split; [intros _; now left|intros _; exact E]).
      destruct (pb_lt p); cbn; (split; [intros X; try discriminate X|]).
      all: try (intros [X|[(? & ? & ? & X & _)|(? & ? & ? & _ & X)]]; congruence).
      right. left. eauto.
  - unfold after. cbn [run_cop]. unfold ignored, class_of, update_p_max. unfold mbind at 1 2. unfold read at 1 2. cbn.
    destruct (a_ext (c_at c)) as [? ? []|s [p| | |]|? ? ? []]; try (cbn; split; [intros _; now left|intros _; exact E]).
    destruct (a_mask (c_at c)) as [k|] eqn:Ek; [|congruence].
    unfold mbind. rewrite (read_idxs c k Ek).
    destruct (Nat.eqb (ndim t) 0); unfold lift, ret, raise; cbn.
    + destruct (scalar_of t); cbn; [|split; [intros _; now left|intros _; exact E]].
      destruct (pb_lt p); cbn; (split; [intros X; try discriminate X|]).
      all: try (intros [X|[(? & ? & ? & _ & X)|(? & ? & ? & X & _)]]; congruence).
      right. right. eauto.
    + destruct (last_dim_neq t _) as [[]|]; cbn; try (split; [intros _; now left|intros _; exact E]).
      destruct (pb_lt p); cbn; (split; [intros X; try discriminate X|]).
      all: try (intros [X|[(? & ? & ? & _ & X)|(? & ? & ? & X & _)]]; congruence).
      right. right. eauto.
Qed.

(** ** Along uses *)
Lemma quiet_app us vs : forall c, quiet (us ++ vs) c <-> quiet us c /\ quiet vs (uses us c).
Proof. induction us as [|u us IH]; intros c; cbn [app quiet uses fold_left]; [tauto|]. rewrite IH. unfold uses. tauto. Qed.
Lemma uses_app us vs c : uses (us ++ vs) c = uses vs (uses us c).
Proof. unfold uses. apply fold_left_app. Qed.
Lemma quiet_same us : forall c, Forall public us -> clean c -> c_modified c = false -> quiet us c -> uses us c = c.
Proof.
  induction us as [|u us IH]; intros c HF Hc Hm; [reflexivity|]. apply Forall_cons_iff in HF. destruct HF as [Hu HF].
  cbn [quiet]. intros [Hq Hr]. cbn [uses fold_left].
  assert (E : use_once c u = c).
  { destruct u as [o|x]; [|now apply look_same]. apply (quiet_call o c Hu Hc Hm). now destruct o. }
  rewrite E in *. now apply IH.
Qed.
Lemma look_dirty x c : clean c -> c_modified c = true -> x <> AJax -> c_modified (use_once c (Look x)) = true.
Proof.
  intros Hc E H. unfold use_once, run_use. rewrite ignore_snd. destruct x; cbn [get]; try exact E; try congruence; rewrite via_snd.
  - destruct (tracks_mask c) as [->|X]; assumption.
  - destruct (tracks_mask_idxs c) as [->|X]; assumption.
Qed.
Lemma jax_flag c : clean c -> c_modified c = true -> c_modified (use_once c (Look AJax)) = negb (is_ok (shows c AJax)).
Proof.
  intros [HI _] E. unfold use_once, run_use, shows. rewrite ignore_snd. cbn [get]. rewrite via_snd, via_fst.
  destruct (jax_state c HI) as (_ & _ & X & Y). destruct (fst (jax_component c)); cbn in *; [now apply X|].
  destruct (Y eq_refl) as [->|Z]; [reflexivity|]. now rewrite Z.
Qed.

Lemma modified_false c us : constructed c -> Forall public us ->
  (shows (uses us c) AModified = Ok (VBool false) <->
   exists us1 us2, us = us1 ++ Look AJax :: us2 /\ is_ok (shows (uses us1 c) AJax) = true /\ quiet us2 (uses (us1 ++ [Look AJax]) c)).
Proof.
  intros Hc HF. change (shows (uses us c) AModified) with (Ok (VBool (c_modified (uses us c)))).
  assert (G : (Ok (VBool (c_modified (uses us c))) : res value) = Ok (VBool false) <-> c_modified (uses us c) = false) by (split; [intros X; now injection X|intros ->; reflexivity]).
  rewrite G. clear G. split.
  - induction us as [|u us IH] using rev_ind.
    + cbn. rewrite (constructed_modified c Hc). discriminate.
    + apply Forall_app in HF. destruct HF as [HF Hu]. apply Forall_inv in Hu. specialize (IH HF).
      pose proof (clean_uses us c HF (clean_new c Hc)) as Hcl. rewrite uses_app. cbn [uses fold_left]. change (fold_left use_once us c) with (uses us c).
      destruct (c_modified (uses us c)) eqn:E.
      * intros X. assert (u = Look AJax) as ->.
        { destruct u as [o|x].
          - destruct (tracks_call o Hu (uses us c)) as [Y|Y]; unfold use_once in X; cbn in X; [rewrite Y in X|]; congruence.
          - destruct x; try reflexivity; exfalso; rewrite look_dirty in X; congruence. }
        exists us, []. split; [reflexivity|]. split; [|exact I]. rewrite jax_flag in X by assumption. now destruct (is_ok _).
      * intros X. destruct (IH eq_refl) as (us1 & us2 & -> & H1 & H2). exists us1, (us2 ++ [u]). split; [now rewrite <- app_assoc|]. split; [exact H1|].
        apply quiet_app. split; [exact H2|]. rewrite <- uses_app, <- app_assoc. cbn [app quiet].
        split; [|exact I]. destruct u as [o|x]; [|exact I]. destruct (quiet_call o _ Hu Hcl E) as [[Y _] _]. specialize (Y X). now destruct o.
  - intros (us1 & us2 & -> & H1 & H2). replace (us1 ++ Look AJax :: us2) with ((us1 ++ [Look AJax]) ++ us2) in * by (rewrite <- app_assoc; reflexivity).
    apply Forall_app in HF. destruct HF as [HF1 HF2]. rewrite uses_app.
    assert (E : c_modified (uses (us1 ++ [Look AJax]) c) = false).
    { apply Forall_app in HF1. destruct HF1 as [HF1 _]. pose proof (clean_uses us1 c HF1 (clean_new c Hc)) as Hcl. rewrite uses_app. cbn [uses fold_left].
      change (fold_left use_once us1 c) with (uses us1 c). destruct (c_modified (uses us1 c)) eqn:E; [rewrite jax_flag by assumption; now rewrite H1|].
      now rewrite look_same. }
    rewrite quiet_same; auto. apply clean_uses; [exact HF1|now apply clean_new].
Qed.
Lemma look_nothing c us x : constructed c -> Forall public us -> shows (uses us c) AModified = Ok (VBool false) -> uses (us ++ [Look x]) c = uses us c.
Proof.
  intros Hc HF H. rewrite uses_app. cbn. apply look_same; [apply clean_uses; [exact HF|now apply clean_new]|]. cbn in H. now injection H.
Qed.
