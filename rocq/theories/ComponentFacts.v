(** Lemmas about the component state machine. *)
From Verif Require Import Base Lin LinFacts Mjx Typing Component SpecComponent.
Open Scope R_scope.
Open Scope Z_scope.
Open Scope nat_scope.

(** ** Change tracking *)
Definition tracks {A} (m : M A) : Prop := forall c, snd (m c) = c \/ c_modified (snd (m c)) = true.

Lemma tracks_ret A (x : A) : tracks (ret x).
Proof. left; reflexivity. Qed.
Lemma tracks_raise A e : tracks (@raise A e).
Proof. left; reflexivity. Qed.
Lemma tracks_read A (f : attrs -> res A) : tracks (read f).
Proof. left; reflexivity. Qed.
Lemma tracks_lift A (r : res A) : tracks (lift r).
Proof. left; reflexivity. Qed.
Lemma tracks_seta f : tracks (seta f).
Proof. right; reflexivity. Qed.
Lemma tracks_bind A B (m : M A) (f : A -> M B) : tracks m -> (forall a, tracks (f a)) -> tracks (mbind m f).
Proof.
  intros Hm Hf c. unfold mbind. specialize (Hm c). destruct (m c) as [[a|e] c']; cbn in *.
  - destruct (Hf a c') as [E|E]; [rewrite E|right; exact E]. exact Hm.
  - exact Hm.
Qed.
Lemma tracks_seq A B (m : M A) (m' : M B) : tracks m -> tracks m' -> tracks (mseq m m').
Proof. intros; apply tracks_bind; auto. Qed.

Create HintDb tr.
#[export] Hint Resolve tracks_ret tracks_raise tracks_read tracks_lift tracks_seta : tr.
Ltac trk :=
  repeat first
    [ progress intros
    | apply tracks_ret | apply tracks_raise | apply tracks_read | apply tracks_lift | apply tracks_seta
    | apply tracks_seq | apply tracks_bind
    | match goal with |- tracks (match ?x with _ => _ end) => destruct x end
    | match goal with |- tracks (let '(_, _) := ?x in _) => destruct x end ].

Lemma tracks_update_gain t : tracks (update_gain t).
Proof. unfold update_gain. trk. Qed.
Lemma tracks_update_cost t : tracks (update_cost t).
Proof. unfold update_cost. trk. Qed.
Lemma tracks_com t : tracks (update_target_com t).
Proof. unfold update_target_com. trk. Qed.
Lemma tracks_pos t : tracks (update_target_pos t).
Proof. unfold update_target_pos. trk. Qed.
Lemma tracks_frame t : tracks (update_target_frame t).
Proof. unfold update_target_frame. trk. Qed.
Lemma tracks_q t : tracks (update_target_q t).
Proof. unfold update_target_q. trk. Qed.
Lemma tracks_force : tracks force_mask.
Proof. unfold force_mask. trk. Qed.
Lemma tracks_mask : tracks mask.
Proof. unfold mask. apply tracks_seq; [apply tracks_force|trk]. Qed.
Lemma tracks_mask_idxs : tracks mask_idxs.
Proof. unfold mask_idxs. apply tracks_seq; [apply tracks_force|trk]. Qed.
#[export] Hint Resolve tracks_mask_idxs : tr.
Lemma tracks_pmin t : tracks (update_p_min t).
Proof. unfold update_p_min. trk; apply tracks_mask_idxs. Qed.
Lemma tracks_pmax t : tracks (update_p_max t).
Proof. unfold update_p_max. trk; apply tracks_mask_idxs. Qed.
Lemma tracks_qmin t : tracks (update_q_min t).
Proof. unfold update_q_min. trk. Qed.
Lemma tracks_qmax t : tracks (update_q_max t).
Proof. unfold update_q_max. trk. Qed.
Lemma tracks_bind_joint m f : tracks (bind_joint_masks m f).
Proof. unfold bind_joint_masks. trk. Qed.
Lemma tracks_update_model m : tracks (update_model m).
Proof.
  unfold update_model, update_model_obj, update_model_joint_task, update_model_joint_barrier,
    update_model_self, update_model_equality.
  trk; try apply tracks_bind_joint; try apply tracks_q; try apply tracks_qmin; apply tracks_qmax.
Qed.

(** ** Forcing the default mask, as a pure function *)
Definition forced (a : attrs) : res attrs :=
  match a_mask a with
  | Some _ => Ok a
  | None => if (a_dim a =? -1)%Z then Err ValueError
            else do p <- get_default_mask a; Ok (set_a_mask_idxs (set_a_mask a (fst p)) (snd p))
  end.

Lemma force_eq c :
  force_mask c =
  match forced (c_at c) with
  | Ok a' => (Ok tt, match a_mask (c_at c) with Some _ => c | None => mkC a' true (c_cache c) end)
  | Err e => (Err e, c)
  end.
Proof.
  unfold force_mask, forced, mbind, mseq, read, ret, raise, seta. cbn.
  destruct (a_mask (c_at c)) eqn:E; cbn; [reflexivity|].
  destruct (a_dim (c_at c) =? -1)%Z eqn:E2; cbn; [reflexivity|].
  destruct (get_default_mask (c_at c)) as [p|e]; cbn; reflexivity.
Qed.

Lemma forced_mask a a' : forced a = Ok a' -> exists l, a_mask a' = Some l.
Proof.
  unfold forced. destruct (a_mask a) as [l|] eqn:E.
  - intros H; injection H as <-. eauto.
  - destruct (_ =? _)%Z; [discriminate|]. destruct (get_default_mask a); cbn; [|discriminate].
    intros H; injection H as <-. cbn. eauto.
Qed.
Lemma forced_idem a a' : forced a = Ok a' -> forced a' = Ok a'.
Proof. intros H. destruct (forced_mask _ _ H) as [l E]. unfold forced. now rewrite E. Qed.
Lemma forced_other a a' : forced a = Ok a' ->
  a_name a' = a_name a /\ a_model a' = a_model a /\ a_gain a' = a_gain a /\ a_gain_fn a' = a_gain_fn a /\
  a_dim a' = a_dim a /\ a_ext a' = a_ext a.
Proof.
  unfold forced. destruct (a_mask a) as [l|] eqn:E.
  - intros H; injection H as <-. repeat split.
  - destruct (_ =? _)%Z; [discriminate|]. destruct (get_default_mask a); cbn; [|discriminate].
    intros H; injection H as <-. cbn. repeat split.
Qed.

(** Getters expressed through [forced]. *)
Lemma mask_fst c : fst (mask c) = do a' <- forced (c_at c); opt ValueError (a_mask a').
Proof.
  unfold mask, mseq, mbind. rewrite force_eq.
  destruct (forced (c_at c)) as [a'|e] eqn:F; cbn; [|reflexivity].
  destruct (a_mask (c_at c)) eqn:E; cbn.
  - unfold forced in F. rewrite E in F. injection F as <-. now rewrite E.
  - reflexivity.
Qed.
Lemma mask_idxs_fst c : fst (mask_idxs c) = do a' <- forced (c_at c); Ok (a_mask_idxs a').
Proof.
  unfold mask_idxs, mseq, mbind. rewrite force_eq.
  destruct (forced (c_at c)) as [a'|e] eqn:F; cbn; [|reflexivity].
  destruct (a_mask (c_at c)) eqn:E; cbn.
  - unfold forced in F. rewrite E in F. injection F as <-. reflexivity.
  - reflexivity.
Qed.
Lemma mask_idxs_snd c :
  c_at (snd (mask_idxs c)) = match forced (c_at c) with Ok a' => a' | Err _ => c_at c end.
Proof.
  unfold mask_idxs, mseq, mbind. rewrite force_eq.
  destruct (forced (c_at c)) as [a'|e] eqn:F; cbn; [|reflexivity].
  destruct (a_mask (c_at c)) eqn:E; cbn; [|reflexivity].
  unfold forced in F. rewrite E in F. now injection F as <-.
Qed.

(** ** build_component as a pure function of the attributes *)
Definition build_pure (a : attrs) : res jaxc :=
  do d <- dim a; do m <- opt ValueError (a_model a); do g <- vector_gain a;
  do a' <- forced a; do e <- build_ext a'; Ok (mkJ d m g (a_gain_fn a) (a_mask_idxs a') e).

Lemma build_eq c :
  fst (build_component c) = build_pure (c_at c) /\
  (forall j, build_pure (c_at c) = Ok j -> forced (c_at c) = Ok (c_at (snd (build_component c)))) /\
  (c_at (snd (build_component c)) = c_at c \/ forced (c_at c) = Ok (c_at (snd (build_component c)))) /\
  (snd (build_component c) = c \/ c_modified (snd (build_component c)) = true).
Proof.
  unfold build_component, build_pure, mbind, read, ret.
  destruct (dim (c_at c)) as [d|]; cbn; [|repeat split; [discriminate|auto|auto]].
  destruct (opt ValueError (a_model (c_at c))) as [m|] eqn:Em; cbn; [|repeat split; [discriminate|auto|auto]].
  destruct (vector_gain (c_at c)) as [g|]; cbn; [|repeat split; [discriminate|auto|auto]].
  pose proof (mask_idxs_fst c) as H1. pose proof (mask_idxs_snd c) as H2.
  pose proof (tracks_mask_idxs c) as H3.
  destruct (mask_idxs c) as [r c'] eqn:E. cbn in H1, H2, H3.
  destruct (forced (c_at c)) as [a'|e] eqn:F; cbn in H1; subst r; cbn.
  - subst a'. destruct (build_ext (c_at c')) as [x|e] eqn:B; cbn.
    + repeat split; auto.
    + repeat split; auto.
  - repeat split; auto. discriminate.
Qed.

Lemma build_ext_forced a a' : forced a = Ok a' -> build_ext a' = build_ext a.
Proof.
  intros H. destruct (forced_other _ _ H) as (_ & _ & _ & _ & Hd & He).
  unfold build_ext, matrix_cost, soft_constraint_cost, d_min_vec, dim. rewrite He, Hd. reflexivity.
Qed.
Lemma vector_gain_forced a a' : forced a = Ok a' -> vector_gain a' = vector_gain a.
Proof.
  intros H. destruct (forced_other _ _ H) as (_ & _ & Hg & _ & Hd & _).
  unfold vector_gain, dim. now rewrite Hg, Hd.
Qed.
Lemma build_pure_forced a a' : forced a = Ok a' -> build_pure a' = build_pure a.
Proof.
  intros H. destruct (forced_other _ _ H) as (_ & Hm & _ & Hf & Hd & _).
  unfold build_pure. rewrite (forced_idem _ _ H), H, (vector_gain_forced _ _ H), Hm, Hf.
  unfold dim. now rewrite Hd.
Qed.

#[local] Arguments build_component : simpl never.

(** What a read of jax_component should return, from the attributes alone. *)
Definition jax_pure (a : attrs) : res jaxc :=
  match a_model a with
  | None => Err ValueError
  | Some _ => if (a_dim a =? -1)%Z then Err ValueError else build_pure a
  end.
Lemma jax_pure_forced a a' : forced a = Ok a' -> jax_pure a' = jax_pure a.
Proof.
  intros H. destruct (forced_other _ _ H) as (_ & Hm & _ & _ & Hd & _).
  unfold jax_pure. now rewrite Hm, Hd, (build_pure_forced _ _ H).
Qed.

Definition Inv (c : comp) : Prop :=
  c_modified c = false -> exists j, c_cache c = Some j /\ jax_pure (c_at c) = Ok j.

Lemma jax_modified c : c_modified c = true -> fst (jax_component c) = jax_pure (c_at c).
Proof.
  intros Hm. unfold jax_component, jax_pure, mbind, read, raise. cbn.
  destruct (a_model (c_at c)); cbn; [|reflexivity].
  destruct (a_dim (c_at c) =? -1)%Z; cbn; [reflexivity|].
  rewrite Hm. destruct (build_eq c) as (H & _). destruct (build_component c) as [[j|e] c']; cbn in *; auto.
Qed.

Lemma jax_value c : Inv c -> fst (jax_component c) = jax_pure (c_at c).
Proof.
  intros HI. destruct (c_modified c) eqn:Hm; [now apply jax_modified|].
  destruct (HI Hm) as (j & Hc & Hj). rewrite Hj.
  unfold jax_pure in Hj. unfold jax_component, mbind, read, raise. cbn.
  destruct (a_model (c_at c)); cbn; [|discriminate].
  destruct (a_dim (c_at c) =? -1)%Z; cbn; [discriminate|].
  now rewrite Hm, Hc.
Qed.

(** State after a read. *)
Lemma jax_state c : Inv c ->
  let c' := snd (jax_component c) in
  Inv c' /\ (c_at c' = c_at c \/ forced (c_at c) = Ok (c_at c')) /\
  (is_ok (fst (jax_component c)) = true -> c_modified c' = false) /\
  (is_ok (fst (jax_component c)) = false -> c_modified c' = true \/ c' = c).
Proof.
  intros HI. pose proof (jax_value c HI) as HV. revert HV.
  unfold jax_component, mbind, read, raise. cbn.
  destruct (a_model (c_at c)) eqn:Em; cbn; [|intros _; repeat split; auto; discriminate].
  destruct (a_dim (c_at c) =? -1)%Z eqn:Ed; cbn; [intros _; repeat split; auto; discriminate|].
  destruct (c_modified c) eqn:Hm.
  - destruct (build_eq c) as (H1 & H2 & H3 & H4).
    destruct (build_component c) as [[j|e] c'] eqn:B; cbn in *; intros HV.
    + repeat split; auto; try discriminate.
      intros _. cbn. exists j. split; [reflexivity|].
      specialize (H2 j (eq_sym H1)). rewrite (jax_pure_forced _ _ H2). auto.
    + repeat split; auto; try discriminate.
      * intros Hf. destruct H4 as [->|H4]; congruence.
      * intros _. tauto.
  - destruct (HI Hm) as (j & Hc & Hj). rewrite Hc. cbn. intros _. repeat split; auto; discriminate.
Qed.

Lemma tracks_Inv A (m : M A) c : tracks m -> Inv c -> Inv (snd (m c)).
Proof. intros H HI. destruct (H c) as [->|E]; [exact HI|]. intros F; congruence. Qed.

Lemma after_Inv o c : Inv c -> Inv (after o c).
Proof.
  intros HI. unfold after. destruct o; cbn [run_cop].
  - now apply tracks_Inv; [apply tracks_update_gain|].
  - now apply tracks_Inv; [apply tracks_update_model|].
  - now apply tracks_Inv; [apply tracks_update_cost|].
  - now apply tracks_Inv; [apply tracks_com|].
  - now apply tracks_Inv; [apply tracks_pos|].
  - now apply tracks_Inv; [apply tracks_frame|].
  - now apply tracks_Inv; [apply tracks_q|].
  - now apply tracks_Inv; [apply tracks_pmin|].
  - now apply tracks_Inv; [apply tracks_pmax|].
  - now apply tracks_Inv; [apply tracks_qmin|].
  - now apply tracks_Inv; [apply tracks_qmax|].
  - now apply tracks_Inv; [apply tracks_seta|].
  - apply tracks_Inv; [|assumption]. unfold ignore. apply tracks_bind; [apply tracks_mask|trk].
  - apply tracks_Inv; [|assumption]. unfold ignore. apply tracks_bind; [apply tracks_mask_idxs|trk].
  - unfold ignore, mbind. destruct (jax_state c HI) as (H & _).
    destruct (jax_component c) as [[j|e] c']; exact H.
Qed.

Lemma history_Inv os c : Inv c -> Inv (history os c).
Proof.
  revert c. induction os as [|o os IH]; intros c H; [exact H|]. cbn. apply IH. now apply after_Inv.
Qed.

Lemma constructed_modified c : constructed c -> c_modified c = true.
Proof.
  intros H. destruct H as [??????? H|???????? ? H|????????? H|??????? H|????????? H|??????????? H|???????? H|????????? H|????????
 H|????? H|???????? H].
  all: match type of H with ?f = Ok _ => unfold new_com_task, new_position_task, new_frame_task, new_joint_task,
     new_custom_task, new_position_barrier, new_joint_barrier, new_self_collision, new_custom_barrier,
     new_model_equality, new_custom_constraint in H end.
  all: repeat match type of H with
    | bind ?e _ = Ok _ => destruct e eqn:?; cbn [bind] in H; [|discriminate]
    | (if ?b then Err _ else _) = Ok _ => destruct b; [discriminate|]
    end; try (injection H as <-; reflexivity).
  (* position barrier *)
  match goal with Hf : from_str _ = Ok ?t |- _ => destruct t end; cbn in H.
  all: repeat match type of H with
    | bind ?e _ = Ok _ => destruct e eqn:?; cbn [bind] in H; [|discriminate]
    end.
  all: match goal with c : comp |- _ => idtac end.
  all: assert (T : forall c1 m c2, tracks m -> run_init c1 m = Ok c2 -> c_modified c1 = true -> c_modified c2 = true) by
    (intros c1 m c2 Ht; unfold run_init; specialize (Ht c1); destruct (m c1) as [[|] ?]; cbn in *; intros E Hm; try discriminate;
     injection E as <-; destruct Ht as [->|]; auto).
  all: match goal with Hc : _ = Ok ?c1 |- _ =>
    assert (M1 : c_modified c1 = true) by
     (match type of Hc with match ?lo with _ => _ end = _ => destruct lo end;
      [eapply T; [apply tracks_pmin| eassumption|reflexivity] | injection Hc as <-; reflexivity]) end.
  all: match type of H with match ?hi with _ => _ end = _ => destruct hi end;
      [eapply T; [apply tracks_pmax|eassumption|assumption] | injection H as <-; assumption].
Qed.

Lemma reachable_Inv c : reachable c -> Inv c.
Proof.
  intros (c0 & os & H & ->). apply history_Inv. intros F. rewrite (constructed_modified _ H) in F. discriminate.
Qed.
