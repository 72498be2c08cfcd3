(** Facts behind C114. *)
From Verif Require Import Base Lin Mjx Typing Component SpecComponent ComponentFacts ComponentFacts2 Problem SpecProblem ProblemFacts ShareFacts SpecSettings SettingFacts Read SpecRead ReadFacts ReadFacts2 ReadFacts3 JaxTree SpecJaxTree SpecFields.
Open Scope nat_scope.

Lemma shown_of c j x f : carries c j -> compiled_class (SpecSettings.class_of c) j -> field_named x = Some f ->
  match shows c x with Ok v => at_path [f] (component_object j) = shown_value x v /\ shown_value x v <> None | Err _ => at_path [f] (component_object j) = None end.
Proof.
  intros HC HK Hf. destruct j as [dm m g gf mi e]. unfold carries in HC. cbn [j_dim j_model j_gain j_gain_fn j_mask_idxs j_ext] in HC.
  destruct HC as (H1 & H2 & H3 & H4 & H5 & HC). unfold compiled_class in HK. cbn [j_ext] in HK.
  assert (ND := not_defined c x).
  destruct (SpecSettings.class_of c) eqn:K; destruct e as [W lm k|s k|a h W k]; try contradiction; destruct k; try contradiction;
  cbv beta iota in HC; destruct x; cbn in Hf; try discriminate Hf; injection Hf as <-;
  try (rewrite (ND eq_refl); reflexivity);
  repeat match goal with H : _ /\ _ |- _ => destruct H end;
  try (match goal with H : shows c ?x = Ok _ |- context[shows c ?x] => rewrite H end; (split; [reflexivity|discriminate])).
Qed.
Lemma class_published c j : published c j -> compiled_class (SpecSettings.class_of c) j.
Proof.
  intros (P1 & P2 & P3 & P4 & P5 & P6 & P7). unfold compiled_class, SpecSettings.class_of. inversion P7; match goal with X : a_ext _ = _ |- _ => rewrite X; auto end.
  cbn. split; [rewrite repeat_length, P2; lia|]. apply Forall_forall. intros x Hx. now apply repeat_spec in Hx.
Qed.
Lemma Inv_fields c j x f : Inv c -> fst (jax_component c) = Ok j -> field_named x = Some f ->
  match shows c x with Ok v => at_path [f] (component_object j) = shown_value x v /\ shown_value x v <> None | Err _ => at_path [f] (component_object j) = None end.
Proof.
  intros HI Hj. apply shown_of.
  - apply shows_carried; [exact HI|]. unfold shows. cbn [get]. rewrite via_fst, Hj. reflexivity.
  - apply class_published. apply jax_pure_published. rewrite <- (jax_value c HI). exact Hj.
Qed.
Lemma jax_shown c j : shows c AJax = Ok (VJax j) -> fst (jax_component c) = Ok j.
Proof. unfold shows. cbn [get]. rewrite via_fst. destruct (fst (jax_component c)); cbn; congruence. Qed.

Lemma every_field j f : has_field (component_object j) f -> f = "function"%string \/ exists x, field_named x = Some f.
Proof.
  unfold has_field, component_object. destruct j as [dm m g gf mi [W lm k|s k|a h W k]]; destruct k; cbn [j_ext task_fields barrier_fields constraint_fields declared];
  rewrite map_map; cbn; intros H; repeat (destruct H as [<-|H]; [first [now left|right;
   first [now exists ADim|now exists AModel|now exists AVectorGain|now exists AGainFn|now exists AMaskIdxs|now exists AMatrixCost|now exists ALmDamping
         |now exists ATargetCom|now exists ATargetPos|now exists ATargetFrame|now exists ATargetQ|now exists AQMaskIdxs|now exists ASafeDisplacementGain
         |now exists AObjId|now exists AObjType|now exists ALimitTypeMaskIdxs|now exists APMin|now exists APMax|now exists AQMin|now exists AQMax
         |now exists ADMinVec|now exists ACollisionPairs|now exists ANClosestPairs|now exists AActive|now exists AHard|now exists ASoftCost]]|]); destruct H.
Qed.
Lemma constants j x f : field_named x = Some f -> at_path [f] (component_object j) <> None -> (in_tree [f] (component_object j) <-> ~ In f constant_fields).
Proof.
  unfold component_object, constant_fields. intros Hf. destruct j as [dm m g gf mi [W lm k|s k|a h W k]]; destruct k; cbn [j_ext task_fields barrier_fields constraint_fields];
  (destruct x; cbn in Hf; try discriminate Hf; injection Hf as <-); cbn; intros Hp; try (now exfalso; apply Hp);
  (split; [intros [E _]; try discriminate E; intros HH; repeat (destruct HH as [HH|HH]; [discriminate HH|]); exact HH
          |intros HN; first [now split|exfalso; apply HN; tauto]]).
Qed.

Lemma assoc_F2 {A B} (P : nat -> A -> Prop) (g : A -> B) n i (l : list (string * nat)) (js : list (string * A)) : NoDup (map fst l) -> In (n, i) l ->
  Forall2 (fun e r => fst r = fst e /\ P (snd e) (snd r)) l js -> exists j, P i j /\ assoc n (map (fun e => (fst e, g (snd e))) js) = Some (g j).
Proof.
  intros Hd Hin HF. induction HF as [|[k u] [k' j] l js [E Hp] HF IH]; [destruct Hin|]. cbn in E, Hp |- *. subst k'.
  inversion Hd as [|? ? Hn Hd']; subst. destruct Hin as [Hin|Hin].
  - injection Hin as -> ->. exists j. rewrite String.eqb_refl. auto.
  - destruct (String.eqb_spec n k) as [->|]; [|now apply IH]. exfalso. apply Hn. apply in_map_iff. exists (k, i). auto.
Qed.
Lemma assoc_F2_none {A B} (P : nat -> A -> Prop) (g : A -> B) n (l : list (string * nat)) (js : list (string * A)) : (forall i, ~ In (n, i) l) ->
  Forall2 (fun e r => fst r = fst e /\ P (snd e) (snd r)) l js -> assoc n (map (fun e => (fst e, g (snd e))) js) = None.
Proof.
  intros Hn HF. induction HF as [|[k u] [k' j] l js [E Hp] HF IH]; [reflexivity|]. cbn in E, Hp |- *. subst k'.
  destruct (String.eqb_spec n k) as [->|]; [exfalso; apply (Hn u); now left|]. apply IH. intros i Hi. apply (Hn i). now right.
Qed.
Lemma data_fields os pi p pd : Forall legal os -> problem_of (state os) pi p -> fst (step (WCompile pi) (state os)) = Ok (OData pd) ->
  at_path ["model"%string] (data_object pd) = Some (PModel (p_model p)) /\
  at_path ["v_min"%string] (data_object pd) = Some (PArr (tvec (p_vmin p))) /\
  at_path ["v_max"%string] (data_object pd) = Some (PArr (tvec (p_vmax p))) /\
  (forall n, (forall i, ~ In (n, i) (p_comps p)) -> at_path ["components"%string; n] (data_object pd) = None) /\
  (forall n i c x f, In (n, i) (p_comps p) -> nth_error (w_comps (state os)) i = Some c -> field_named x = Some f ->
     match shows c x with
     | Ok v => at_path ["components"%string; n; f] (data_object pd) = shown_value x v /\ shown_value x v <> None
     | Err _ => at_path ["components"%string; n; f] (data_object pd) = None
     end).
Proof.
  intros Hl Hp Hc. apply (proj1 (compile_spec os pi p Hl Hp)) in Hc. destruct Hc as (E1 & E2 & E3 & HF).
  unfold data_object. cbn [at_path assoc]. cbn. rewrite E1, E2, E3. repeat (split; [reflexivity|]). split.
  - intros n Hn. now rewrite (assoc_F2_none (fun i j => exists c, nth_error (w_comps (state os)) i = Some c /\ fst (jax_component c) = Ok j) component_object n _ _ Hn HF).
  - intros n i c x f Hin Hi Hf.
    assert (Nd : NoDup (map fst (p_comps p))) by (pose proof (contents os pi) as K; unfold problem_of in Hp; rewrite Hp in K; apply K).
    destruct (assoc_F2 (fun i j => exists c, nth_error (w_comps (state os)) i = Some c /\ fst (jax_component c) = Ok j) component_object n i _ _ Nd Hin HF) as (j & (c' & Ec & Ej) & ->).
    assert (c' = c) by congruence. subst c'.
    assert (HI : Inv c). { pose proof (reach_always os Hl) as R. rewrite Forall_forall in R. apply reachable_Inv, R. now apply nth_error_In in Hi. }
    exact (Inv_fields c j x f HI Ej Hf).
Qed.
Lemma data_in_tree pd n j : In (n, j) (jd_comps pd) -> in_tree ["model"%string] (data_object pd) /\
  in_tree ["v_min"%string] (data_object pd) /\ in_tree ["v_max"%string] (data_object pd) /\ in_tree ["components"%string; n] (data_object pd).
Proof.
  intros Hin. cbn. do 3 (split; [now split|]). split; [reflexivity|].
  enough (assoc n (map (fun e => (fst e, component_object (snd e))) (jd_comps pd)) <> None) as Hs by (destruct (assoc n _); [exact I|congruence]).
  induction (jd_comps pd) as [|[k u] l IH]; [destruct Hin|]. cbn. destruct (String.eqb_spec n k) as [->|Hne]; [discriminate|]. apply IH.
  destruct Hin as [E|Hin]; [|exact Hin]. injection E as -> ->. congruence.
Qed.
