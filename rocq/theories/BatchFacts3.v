(** Samples of templates, and the correspondence between places and settings. *)
From Verif Require Import Base Lin LinFacts Mjx Typing Component Problem SpecComponent SpecProblem SpecQP JaxTree SpecJaxTree.
From Verif Require Import ComponentFacts ComponentFacts2 ProblemFacts ShareFacts JaxTreeFacts JaxTreeThms SpecBatch BatchFacts BatchFacts2.
Open Scope nat_scope.
#[local] Arguments update_model : simpl never.
#[local] Arguments jax_component : simpl never.
#[local] Arguments row : simpl never.
#[local] Arguments Nat.eqb : simpl never.

Definition eight : list string :=
  ["target_com"; "target_pos"; "target_frame"; "target_q"; "p_min"; "p_max"; "q_min"; "q_max"]%string.

Lemma sample_comp i F j : (forall f, ~ In f eight -> F f = false) ->
  sample (slice i) (comp_template F (component_object j)) (component_object j) = component_object (lane_j i F j).
Proof.
  intros HF. assert (N : forall f, existsb (String.eqb f) eight = false -> F f = false).
  { intros f Hf. apply HF. intros Hi. assert (existsb (String.eqb f) eight = true); [|congruence]. apply existsb_exists. exists f. split; [exact Hi|apply String.eqb_refl]. }
  pose proof (N "dim"%string eq_refl) as Ndim. pose proof (N "model"%string eq_refl) as Nmodel. pose proof (N "vector_gain"%string eq_refl) as Ngain.
  pose proof (N "gain_fn"%string eq_refl) as Nfn. pose proof (N "mask_idxs"%string eq_refl) as Nmask. pose proof (N "matrix_cost"%string eq_refl) as Ncost.
  pose proof (N "lm_damping"%string eq_refl) as Nlm. pose proof (N "obj_id"%string eq_refl) as Nid. pose proof (N "obj_type"%string eq_refl) as Nty.
  pose proof (N "qmask_idxs"%string eq_refl) as Nq. pose proof (N "function"%string eq_refl) as Nf. pose proof (N "safe_displacement_gain"%string eq_refl) as Ns.
  pose proof (N "limit_type_mask_idxs"%string eq_refl) as Nl. pose proof (N "d_min_vec"%string eq_refl) as Nd. pose proof (N "collision_pairs"%string eq_refl) as Np.
  pose proof (N "n_closest_pairs"%string eq_refl) as Nn. pose proof (N "active"%string eq_refl) as Na. pose proof (N "hard_constraint"%string eq_refl) as Nh.
  pose proof (N "soft_constraint_cost"%string eq_refl) as Nw. clear N HF.
  unfold component_object, lane_j. cbn [j_ext j_dim j_model j_gain j_gain_fn j_mask_idxs].
  destruct (j_ext j) as [W lm [t|o y t|o y t|t q|f]|s [o y lo hi li|lo hi q|dv ps n|f]|a h W [|f]]; cbn;
    repeat match goal with H : F ?x = false |- _ => rewrite !H end; cbn; unfold pick;
    repeat match goal with |- context [F ?x] => destruct (F x) end; reflexivity.
Qed.

Lemma sample_data i G pd es : NoDup (map fst (jd_comps pd)) -> (forall n f, ~ In f eight -> G n f = false) ->
  (forall n j, In (n, j) es -> In (n, j) (jd_comps pd)) ->
  sample (slice i) (data_template G pd) (data_object (mkJD (jd_model pd) (jd_vmin pd) (jd_vmax pd) es))
  = data_object (mkJD (jd_model pd) (jd_vmin pd) (jd_vmax pd) (map (fun e => (fst e, lane_j i (G (fst e)) (snd e))) es)).
Proof.
  intros Hn HG He. unfold data_template, data_object, dyn. cbn [jd_model jd_vmin jd_vmax jd_comps sample map fst snd assoc String.eqb Ascii.eqb Bool.eqb].
  apply (f_equal (fun l => PObj _ (_ :: _ :: _ :: [(_, (_, PDict l))]))). rewrite !map_map. cbn [fst snd]. apply map_ext_in. intros (n, j) Hi. cbn [fst snd]. f_equal.
  rewrite (assoc_map_names (entry_template G)) by reflexivity. rewrite assoc_ssort, (assoc_In n j) by auto. cbn [option_map entry_template snd fst].
  apply sample_comp. intros f Hf. now apply HG.
Qed.

(** ** Places and settings *)
Definition marked (ks : list call) (G : string -> string -> bool) : string -> string -> bool :=
  fold_left (fun G k => mark G (snd (fst k)) (field_of (snd k))) ks G.
Lemma batched_field N o : batched N o -> In (field_of o) eight.
Proof. intros (t & s & H & _). destruct o as [| | |t0|t0|[t0|t0]|t0|t0|t0|t0|t0| | | |]; try discriminate; cbn; tauto. Qed.
Lemma marked_eight N pi ks : forall w G, batch N pi ks w -> (forall n f, ~ In f eight -> G n f = false) ->
  forall n f, ~ In f eight -> marked ks G n f = false.
Proof.
  induction ks as [|((ci, m), o) ks IH]; intros w G Hb HG; [exact HG|]. destruct Hb as (_ & Hb & _ & _ & Hr). cbn [marked fold_left]. eapply IH; [exact Hr|].
  intros n f Hf. cbn [fst snd]. unfold mark. destruct (String.eqb m n); [|now apply HG]. unfold also. rewrite HG by exact Hf. cbn.
  destruct (String.eqb_spec (field_of o) f) as [E|]; [|reflexivity]. exfalso. apply Hf. rewrite <- E. eapply batched_field; eauto.
Qed.

Lemma cop_world ci o w : w_probs (snd (step (WCop ci o) w)) = w_probs w /\ List.length (w_comps (snd (step (WCop ci o) w))) = List.length (w_comps w).
Proof.
  cbn [step]. destruct (nth_error (w_comps w) ci); [|now split]. destruct (run_cop o c) as [r c']. cbn. split; [reflexivity|apply replace_length].
Qed.
Lemma lookup_assoc pi n ci w p : nth_error (w_probs w) pi = Some p -> (forall n i, In (n, i) (p_comps p) -> i < List.length (w_comps w)) ->
  NoDup (map fst (p_comps p)) -> (fst (step (WComponent pi n) w) = Ok (ORef ci) <-> In (n, ci) (p_comps p)).
Proof.
  intros Hp Hi Hn. cbn [step]. unfold component, lookup. rewrite Hp. rewrite <- (assoc_in n (p_comps p) ci Hn). destruct (assoc n (p_comps p)) as [i|] eqn:E.
  - apply assoc_in in E; [|exact Hn]. specialize (Hi _ _ E). destruct (nth_error (w_comps w) i) eqn:En; [|apply nth_error_None in En; lia].
    cbn. split; congruence.
  - cbn. split; discriminate.
Qed.
Lemma marks_agree N pi ks p : NoDup (map fst (p_comps p)) -> forall w F G, nth_error (w_probs w) pi = Some p ->
  (forall n i, In (n, i) (p_comps p) -> i < List.length (w_comps w)) -> batch N pi ks w ->
  (forall n ci f, In (n, ci) (p_comps p) -> F ci f = G n f) ->
  forall n ci f, In (n, ci) (p_comps p) -> marks ks F ci f = marked ks G n f.
Proof.
  intros Hn. induction ks as [|((ci', m), o) ks IH]; intros w F G Hp Hi Hb HF n ci f Hin; [now apply HF|].
  destruct Hb as (Hl & _ & _ & _ & Hr). cbn [marks marked fold_left fst snd]. destruct (cop_world ci' o w) as [W1 W2].
  eapply IH; [now rewrite W1|intros n0 i0 H0; rewrite W2; now apply (Hi n0)|exact Hr| |exact Hin]. clear IH Hr Hin n ci f. intros n ci f Hin.
  unfold mark. destruct (Nat.eqb_spec ci' ci) as [->|E1].
  - assert (n = m). { apply Hl. now apply (lookup_assoc pi n ci w p). } subst m. rewrite String.eqb_refl. unfold also. now rewrite (HF n ci f Hin).
  - destruct (String.eqb_spec m n) as [->|E2]; [|now apply HF]. exfalso. apply E1.
    assert (In (n, ci') (p_comps p)). { apply (lookup_assoc pi n ci' w p Hp Hi Hn). now apply Hl. }
    apply assoc_in in H, Hin; auto. congruence.
Qed.

(** The fields that a component's class declares for its settings. *)
Definition own_fields (e : ext) : list string :=
  match e with
  | XTask _ _ (TCom _) => ["target_com"] | XTask _ _ (TPos _ _) => ["target_pos"] | XTask _ _ (TFrame _ _) => ["target_frame"] | XTask _ _ (TJoint _) => ["target_q"]
  | XBarrier _ (BPos _) => ["p_min"; "p_max"] | XBarrier _ (BJoint _) => ["q_min"; "q_max"] | _ => []
  end%string.
Lemma own_published a j f : jax_pure a = Ok j -> In f (own_fields (a_ext a)) -> has_field (component_object j) f.
Proof.
  intros H Hf. unfold jax_pure in H. destruct (a_model a); [|discriminate]. destruct (a_dim a =? -1)%Z eqn:Ed; [discriminate|].
  unfold build_pure in H. destruct (dim a); cbn in H; [|discriminate]. destruct (opt ValueError (a_model a)); cbn in H; [|discriminate].
  destruct (vector_gain a); cbn in H; [|discriminate]. destruct (forced a) as [a'|] eqn:Fo; cbn in H; [|discriminate].
  rewrite (build_ext_forced _ _ Fo) in H. destruct (build_ext a) as [e|] eqn:B; cbn in H; [|discriminate]. injection H as <-.
  apply build_ext_published in B; [|now apply Z.eqb_neq]. unfold has_field, component_object. cbn [j_ext].
  inversion B as [? ? ? ? E|? ? ? ? ? E|? ? ? ? ? E|? ? ? ? ? ? E|? ? ? ? E|? ? ? ? ? ? E|? ? ? ? ? E|? ? ? ? ? ? ? E|? ? E|? ? ? ? E|? ? ? ? ? E]; subst; rewrite E in Hf; cbn in Hf |- *; tauto.
Qed.
Lemma own_call N o c : batched N o -> fst (run_cop o c) = Ok tt ->
  In (field_of o) (own_fields (a_ext (c_at c))) /\ own_fields (a_ext (c_at (snd (run_cop o c)))) = own_fields (a_ext (c_at c)).
Proof.
  intros (t & s & Ha & _ & Hs & Hne) Ho.
  destruct (row_ndim 0 _ _ _ Hs Hne) as [_ R2].
  destruct o as [| | |t0|t0|[t0|t0]|t0|t0|t0|t0|t0| | | |]; try discriminate; injection Ha as ->; cbn [run_cop field_of] in *.
  - unfold update_target_com, mbind, read, lift, raise, seta in *. cbn in Ho |- *.
    destruct (a_ext (c_at c)) as [co l [tt0|ob tt0|ob tt0|[fm tg q]|f]|sd k|? ? ? ?] eqn:E; try discriminate. cbn in *.
    destruct (last_dim_neq t _) as [[|]|]; try discriminate. split; [now left|reflexivity].
  - unfold update_target_pos, mbind, read, lift, raise, seta in *. cbn in Ho |- *.
    destruct (a_ext (c_at c)) as [co l [tt0|ob tt0|ob tt0|[fm tg q]|f]|sd k|? ? ? ?] eqn:E; try discriminate. cbn in *.
    destruct (last_dim_neq t _) as [[|]|]; try discriminate. split; [now left|reflexivity].
  - unfold update_target_frame, mbind, read, lift, raise, seta in *. cbn in Ho |- *.
    destruct (a_ext (c_at c)) as [co l [tt0|ob tt0|ob tt0|[fm tg q]|f]|sd k|? ? ? ?] eqn:E; try discriminate. cbn in *. split; [now left|reflexivity].
  - unfold update_target_frame, mbind, read, lift, raise, seta in *. cbn in Ho |- *.
    destruct (a_ext (c_at c)) as [co l [tt0|ob tt0|ob tt0|[fm tg q]|f]|sd k|? ? ? ?] eqn:E; try discriminate. cbn in *.
    destruct (last_dim_neq t _) as [[|]|]; try discriminate. split; [now left|reflexivity].
  - unfold update_target_q, mbind, read, lift, raise, seta, ret in *. cbn in Ho |- *.
    destruct (a_ext (c_at c)) as [co l [tt0|ob tt0|ob tt0|[fm tg q]|f]|sd k|? ? ? ?] eqn:E; try discriminate. cbn in *.
    destruct (a_dim (c_at c) =? -1)%Z; [|destruct (last_dim_neq t _) as [[|]|]; try discriminate]; (split; [now left|reflexivity]).
  - unfold update_p_min, mbind, read, lift, raise, seta, ret in *. cbn in Ho |- *. rewrite R2 in Ho |- *.
    destruct (a_ext (c_at c)) as [co l k|sd [[ob lt li lo hi]|k|k|k]|? ? ? ?] eqn:E; try discriminate. cbn -[mask_idxs] in *.
    pose proof (mask_idxs_fst c) as A1. pose proof (mask_idxs_snd c) as A2. destruct (mask_idxs c) as [r1 c1']. cbn in A1, A2.
    destruct (forced (c_at c)) as [a'|] eqn:Fo; cbn in A1, A2; subst r1; cbn in Ho |- *; [|discriminate].
    destruct (last_dim_neq t _) as [[|]|]; cbn in Ho |- *; try discriminate. destruct (includes_min lt); cbn; (split; [now left|]); [reflexivity|].
    destruct (forced_other _ _ Fo) as (_ & _ & _ & _ & _ & Ee). rewrite A2, Ee, E. reflexivity.
  - unfold update_p_max, mbind, read, lift, raise, seta, ret in *. cbn in Ho |- *. rewrite R2 in Ho |- *.
    destruct (a_ext (c_at c)) as [co l k|sd [[ob lt li lo hi]|k|k|k]|? ? ? ?] eqn:E; try discriminate. cbn -[mask_idxs] in *.
    pose proof (mask_idxs_fst c) as A1. pose proof (mask_idxs_snd c) as A2. destruct (mask_idxs c) as [r1 c1']. cbn in A1, A2.
    destruct (forced (c_at c)) as [a'|] eqn:Fo; cbn in A1, A2; subst r1; cbn in Ho |- *; [|discriminate].
    destruct (last_dim_neq t _) as [[|]|]; cbn in Ho |- *; try discriminate. destruct (includes_max lt); cbn; (split; [now (right; left)|]); [reflexivity|].
    destruct (forced_other _ _ Fo) as (_ & _ & _ & _ & _ & Ee). rewrite A2, Ee, E. reflexivity.
  - unfold update_q_min, mbind, read, lift, raise, seta, dim in *. cbn in Ho |- *.
    destruct (a_ext (c_at c)) as [co l k|sd [k|[fm lo hi q]|k|k]|? ? ? ?] eqn:E; try discriminate. cbn in *.
    destruct (last_dim t); try discriminate. destruct (a_dim (c_at c) =? -1)%Z; try discriminate. destruct (negb _); try discriminate. split; [now left|reflexivity].
  - unfold update_q_max, mbind, read, lift, raise, seta, dim in *. cbn in Ho |- *.
    destruct (a_ext (c_at c)) as [co l k|sd [k|[fm lo hi q]|k|k]|? ? ? ?] eqn:E; try discriminate. cbn in *.
    destruct (last_dim t); try discriminate. destruct (a_dim (c_at c) =? -1)%Z; try discriminate. destruct (negb _); try discriminate. split; [now (right; left)|reflexivity].
Qed.
