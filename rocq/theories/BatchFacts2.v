(** Programs with batched calls against the same programs with one row, compiled
    data, and samples of the compiled tree. *)
From Verif Require Import Base Lin LinFacts Mjx Typing Component Problem SpecComponent SpecProblem SpecQP JaxTree SpecJaxTree.
From Verif Require Import ComponentFacts ComponentFacts2 ProblemFacts ShareFacts JaxTreeFacts JaxTreeThms SpecBatch BatchFacts.
Open Scope nat_scope.
#[local] Arguments update_model : simpl never.
#[local] Arguments jax_component : simpl never.
#[local] Arguments run_cop : simpl never.
#[local] Arguments row : simpl never.
#[local] Arguments Nat.eqb : simpl never.
#[local] Arguments String.eqb : simpl never.

(** ** Programs *)
Definition lanes (i : nat) (F : nat -> string -> bool) (w1 w2 : world) : Prop :=
  w_probs w2 = w_probs w1 /\ List.length (w_comps w2) = List.length (w_comps w1) /\
  forall ci c1 c2, nth_error (w_comps w1) ci = Some c1 -> nth_error (w_comps w2) ci = Some c2 -> c_at c2 = lane_attrs i (F ci) (c_at c1).
Definition marks (ks : list call) (F : nat -> string -> bool) : nat -> string -> bool :=
  fold_left (fun F k => fun ci => if Nat.eqb (fst (fst k)) ci then also (F ci) (field_of (snd k)) else F ci) ks F.

Lemma lanes_refl i w : lanes i (fun _ _ => false) w w.
Proof. repeat split. intros ci c1 c2 H1 H2. rewrite lane_none. congruence. Qed.

Lemma run_lanes i N pi ks : forall w1 w2 F, lanes i F w1 w2 -> batch N pi ks w1 ->
  lanes i (marks ks F) (run (map as_step ks) w1) (run (map (as_row i) ks) w2).
Proof.
  induction ks as [|((ci, n), o) ks IH]; intros w1 w2 F L H; [exact L|]. destruct H as (Hn & Hb & Hs & Ho & Hr).
  change (run (map as_step ((ci, n, o) :: ks)) w1) with (run (map as_step ks) (snd (step (WCop ci o) w1))).
  change (run (map (as_row i) ((ci, n, o) :: ks)) w2) with (run (map (as_row i) ks) (snd (step (WCop ci (with_row i o)) w2))).
  cbn [marks fold_left fst snd]. apply IH; [|exact Hr]. clear IH Hr. destruct L as (L1 & L2 & L3).
  cbn [step] in Ho |- *. destruct (nth_error (w_comps w1) ci) as [c1|] eqn:E1; [|discriminate].
  destruct (nth_error (w_comps w2) ci) as [c2|] eqn:E2.
  2: { apply nth_error_None in E2. assert (ci < List.length (w_comps w1)) by (apply nth_error_Some; congruence). lia. }
  destruct (run_cop o c1) as [r1 c1'] eqn:R1. assert (Hr1 : r1 = Ok tt). { destruct r1 as [[]|]; [reflexivity|discriminate]. } subst r1.
  destruct (call_row i N o (F ci) c1 c2 Hb (Hs c1 eq_refl)) as [A B]; [now rewrite R1|now apply L3|]. rewrite R1 in B. cbn [snd] in B.
  destruct (run_cop (with_row i o) c2) as [r2 c2'] eqn:R2. cbn [fst snd] in A, B |- *. unfold lanes. cbn [w_probs w_comps set_comp].
  split; [exact L1|]. split; [now rewrite !replace_length|]. intros cj d1 d2 H1 H2.
  destruct (Nat.eqb_spec ci cj) as [<-|Hne].
  - rewrite (nth_replace_same _ _ _ _ E1) in H1. rewrite (nth_replace_same _ _ _ _ E2) in H2. congruence.
  - rewrite nth_replace_other in H1 by exact Hne. rewrite nth_replace_other in H2 by exact Hne. now apply L3.
Qed.

(** ** Compiled components *)
Lemma compile_lanes i F G l : forall cs1 cs2 js, Forall reachable cs1 -> Forall reachable cs2 ->
  List.length cs2 = List.length cs1 ->
  (forall ci c1 c2, nth_error cs1 ci = Some c1 -> nth_error cs2 ci = Some c2 -> c_at c2 = lane_attrs i (F ci) (c_at c1)) ->
  (forall n ci f, In (n, ci) l -> F ci f = G n f) ->
  compile_pure l cs1 = Ok js -> compile_pure l cs2 = Ok (map (fun e => (fst e, lane_j i (G (fst e)) (snd e))) js).
Proof.
  induction l as [|(n, ci) l IH]; intros cs1 cs2 js R1 R2 Hl Hc HF H; cbn in H |- *; [now injection H as <-|].
  destruct (nth_error cs1 ci) as [c1|] eqn:E1; [|discriminate].
  destruct (nth_error cs2 ci) as [c2|] eqn:E2.
  2: { apply nth_error_None in E2. assert (ci < List.length cs1) by (apply nth_error_Some; congruence). lia. }
  rewrite Forall_forall in R1, R2. assert (I1 : Inv c1) by (apply reachable_Inv, R1; eapply nth_error_In; eauto).
  assert (I2 : Inv c2) by (apply reachable_Inv, R2; eapply nth_error_In; eauto).
  rewrite (jax_value _ I1) in H. rewrite (jax_value _ I2), (Hc _ _ _ E1 E2).
  rewrite (lane_attrs_ext i (F ci) (G n)) by (intros f; apply HF; now left). rewrite lane_jax.
  destruct (jax_pure (c_at c1)) as [j|]; cbn in H |- *; [|discriminate].
  destruct (compile_pure l cs1) as [js'|] eqn:E; cbn in H; [|discriminate]. injection H as <-.
  erewrite (IH cs1 cs2 js'); [reflexivity|now rewrite Forall_forall|now rewrite Forall_forall|exact Hl|exact Hc| |exact E].
  intros n' ci' f Hi. apply HF. now right.
Qed.

Lemma compile_names l : forall cs js, compile_pure l cs = Ok js -> map fst js = map fst l.
Proof.
  induction l as [|(n, ci) l IH]; intros cs js H; cbn in H; [now injection H as <-|].
  destruct (nth_error cs ci); [|discriminate]. destruct (fst (jax_component c)); cbn in H; [|discriminate].
  destruct (compile_pure l cs) eqn:E; cbn in H; [|discriminate]. injection H as <-. cbn. now rewrite (IH _ _ E).
Qed.

(** ** The template after assignments, as a tree over the data *)
Definition field_template (F : string -> bool) (g : string * (bool * py)) : string * (bool * py) :=
  (fst g, (fst (snd g), if F (fst g) then PInt 0 else if fst (snd g) then snd (snd g) else blank (snd (snd g)))).
Definition comp_template (F : string -> bool) (p : py) : py :=
  match p with PObj c fs => PObj c (map (field_template F) fs) | _ => PNone end.
Definition entry_template (G : string -> string -> bool) (e : string * jaxc) : string * py :=
  (fst e, comp_template (G (fst e)) (component_object (snd e))).
Definition data_template (G : string -> string -> bool) (pd : jdata) : py :=
  PObj "JaxProblemData"%string [dyn "model"%string PNone; dyn "v_min"%string PNone; dyn "v_max"%string PNone;
    dyn "components"%string (PDict (map (entry_template G) (ssort (jd_comps pd))))].

Lemma sinsert_map {A B} (f : string * A -> string * B) : (forall e, fst (f e) = fst e) ->
  forall e l, sinsert (f e) (map f l) = map f (sinsert e l).
Proof.
  intros H e l. induction l as [|x l IH]; cbn; [reflexivity|]. rewrite !H. destruct (String.leb (fst e) (fst x)); cbn; [reflexivity|]. now rewrite IH.
Qed.
Lemma ssort_map {A B} (f : string * A -> string * B) l : (forall e, fst (f e) = fst e) -> ssort (map f l) = map f (ssort l).
Proof.
  intros H. unfold ssort. induction l as [|x l IH]; cbn; [reflexivity|]. rewrite IH. now apply sinsert_map.
Qed.
Lemma names_ssort {A} (l : list (string * A)) : NoDup (map fst l) -> NoDup (map fst (ssort l)).
Proof. intros H. eapply Permutation_NoDup; [|exact H]. apply Permutation_map. symmetry. apply perm_ssort. Qed.

Lemma comp_blank j : blank (component_object j) = comp_template (fun _ => false) (component_object j).
Proof.
  unfold component_object. destruct (j_ext j) as [W lm k|s k|a h W k]; [destruct (task_fields k)|destruct (barrier_fields k)|destruct (constraint_fields k)]; reflexivity.
Qed.
Lemma data_blank pd : blank (data_object pd) = data_template (fun _ _ => false) pd.
Proof.
  unfold data_object, data_template, dyn. cbn [blank map fst snd]. do 7 f_equal.
  rewrite map_map. cbn [fst snd].
  rewrite (ssort_map (fun x => (fst x, blank (component_object (snd x)))) (jd_comps pd)) by reflexivity.
  apply (f_equal PDict). apply map_ext. intros (n, j). unfold entry_template. cbn. now rewrite comp_blank.
Qed.

(** ** Assignments *)
Lemma dict_set_map {A B} n (y : B) (f g : string * A -> string * B) l :
  (forall e, fst (f e) = fst e) -> (forall e, In e l -> fst e = n -> g e = (n, y)) -> (forall e, fst e <> n -> g e = f e) ->
  NoDup (map fst l) -> In n (map fst l) -> dict_set n y (map f l) = map g l.
Proof.
  intros Hf H1 H2. revert H1. induction l as [|x l IH]; cbn; intros H1 Hd Hi; [contradiction|]. inversion Hd as [|? ? Hx Hl]; subst.
  destruct (f x) as [m v] eqn:E. assert (Em : m = fst x) by (rewrite <- (Hf x), E; reflexivity). subst m.
  destruct (String.eqb_spec n (fst x)) as [En|En].
  - subst n. f_equal; [symmetry; apply H1; [now left|reflexivity]|]. apply map_ext_in. intros e He. symmetry. apply H2.
    intros Ee. apply Hx. rewrite <- Ee. apply in_map. exact He.
  - f_equal; [rewrite H2 by congruence; now rewrite E|]. apply IH; [intros e He; apply H1; now right|exact Hl|]. destruct Hi; [congruence|assumption].
Qed.
Lemma assoc_map_names {A B} (f : string * A -> string * B) (l : list (string * A)) n :
  (forall e, fst (f e) = fst e) -> assoc n (map f l) = option_map (fun v => snd (f (n, v))) (assoc n l).
Proof.
  intros H. induction l as [|(k, v) l IH]; cbn; [reflexivity|]. destruct (f (k, v)) as [m u] eqn:E.
  assert (m = k) by (pose proof (H (k, v)) as X; rewrite E in X; exact X). subst m.
  destruct (String.eqb_spec n k) as [->|]; [cbn; now rewrite E|exact IH].
Qed.
Lemma assign_comp F f c fs : NoDup (map fst fs) -> In f (map fst fs) ->
  assign [f] (PInt 0) (comp_template F (PObj c fs)) = Ok (comp_template (also F f) (PObj c fs)).
Proof.
  intros Hn Hf. cbn [comp_template assign]. rewrite (assoc_map_names (field_template F)) by reflexivity.
  destruct (assoc f fs) as [(s, v)|] eqn:E; [|apply assoc_None in E; contradiction]. cbn [option_map snd field_template fst bind].
  do 2 f_equal. apply dict_set_map; [reflexivity| | |exact Hn|exact Hf].
  - intros (m, (s', v')) Hi Em. cbn in Em. subst m. unfold field_template. cbn. rewrite also_same.
    apply assoc_In in Hi; [|exact Hn]. rewrite E in Hi. now injection Hi as <- <-.
  - intros (m, (s', v')) Em. cbn in Em. unfold field_template. cbn. now rewrite also_other by congruence.
Qed.

Definition mark (G : string -> string -> bool) (n f : string) : string -> string -> bool :=
  fun m => if String.eqb n m then also (G m) f else G m.
Lemma assign_step_obj n r v c fs : assign (n :: r) v (PObj c fs) =
  match assoc n fs with Some (s, x) => do x' <- assign r v x; Ok (PObj c (dict_set n (s, x') fs)) | None => Err AttributeError end.
Proof. reflexivity. Qed.
Lemma assign_step_dict n r v es : assign (n :: r) v (PDict es) =
  match assoc n es with Some x => do x' <- assign r v x; Ok (PDict (dict_set n x' es)) | None => Err KeyError end.
Proof. reflexivity. Qed.
Lemma assign_data G pd n j f : NoDup (map fst (jd_comps pd)) -> In (n, j) (jd_comps pd) -> has_field (component_object j) f ->
  assign ["components"%string; n; f] (PInt 0) (data_template G pd) = Ok (data_template (mark G n f) pd).
Proof.
  intros Hn Hj Hf. unfold data_template, dyn. rewrite assign_step_obj.
  replace (assoc "components"%string _) with (Some (false, PDict (map (entry_template G) (ssort (jd_comps pd))))) by reflexivity.
  rewrite assign_step_dict. set (L := ssort (jd_comps pd)). assert (HL : NoDup (map fst L)) by now apply names_ssort.
  assert (HI : In (n, j) L). { eapply Permutation_in; [symmetry; apply perm_ssort|exact Hj]. }
  rewrite (assoc_map_names (entry_template G)) by reflexivity. rewrite (assoc_In n j L HL HI). cbn [option_map snd entry_template fst].
  pose proof (component_fields_distinct j) as [Hd Hc]. destruct (component_object j) as [| | | | | | | | | | | |c fs|] eqn:Ej; try (now elim Hc).
  cbn [declared] in Hd. rewrite map_map in Hd. cbn [fst] in Hd.
  rewrite assign_comp; [|exact Hd|unfold has_field in Hf; now rewrite names_of_declared in Hf]. cbn [bind].
  f_equal. f_equal. replace (dict_set n _ _) with (map (entry_template (mark G n f)) L); [reflexivity|].
  symmetry. apply dict_set_map; [reflexivity| | |exact HL|apply in_map_iff; now exists (n, j)].
  - intros (m, j') Hi Em. cbn in Em. subst m. apply assoc_In in Hi; [|exact HL]. rewrite (assoc_In n j L HL HI) in Hi. injection Hi as <-.
    unfold entry_template, mark. cbn [fst snd]. rewrite String.eqb_refl. now rewrite Ej.
  - intros (m, j') Em. cbn in Em. unfold entry_template, mark. cbn [fst snd]. destruct (String.eqb_spec n m); [congruence|reflexivity].
Qed.
