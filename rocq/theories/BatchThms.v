(** C82: each lane of a batched problem is the problem of that row. *)
From Verif Require Import Base Lin LinFacts Mjx Typing Component Problem SpecComponent SpecProblem SpecQP JaxTree SpecJaxTree.
From Verif Require Import ComponentFacts ComponentFacts2 ProblemFacts ShareFacts JaxTreeFacts JaxTreeThms CompThms2 ProbThms SpecBatch BatchFacts BatchFacts2 BatchFacts3.
Open Scope nat_scope.
#[local] Arguments update_model : simpl never.
#[local] Arguments jax_component : simpl never.
#[local] Arguments run_cop : simpl never.
#[local] Arguments row : simpl never.
#[local] Arguments Nat.eqb : simpl never.

(** What the calls leave alone. *)
Lemma batch_run N pi ks : forall w, batch N pi ks w ->
  w_probs (run (map as_step ks) w) = w_probs w /\ List.length (w_comps (run (map as_step ks) w)) = List.length (w_comps w) /\
  (forall ci c, nth_error (w_comps w) ci = Some c -> exists c', nth_error (w_comps (run (map as_step ks) w)) ci = Some c' /\
     own_fields (a_ext (c_at c')) = own_fields (a_ext (c_at c))) /\
  (forall k, In k ks -> exists c, nth_error (w_comps w) (fst (fst k)) = Some c /\ In (field_of (snd k)) (own_fields (a_ext (c_at c)))).
Proof.
  induction ks as [|((ci, n), o) ks IH]; intros w H.
  - split; [reflexivity|]. split; [reflexivity|]. split; [intros ci c Hc; now exists c|intros k []].
  - destruct H as (Hl & Hb & Hs & Ho & Hr). destruct (cop_world ci o w) as [W1 W2].
    change (run (map as_step ((ci, n, o) :: ks)) w) with (run (map as_step ks) (snd (step (WCop ci o) w))).
    destruct (IH _ Hr) as (A & B & C & D). clear IH. rewrite W1 in A. rewrite W2 in B. split; [exact A|]. split; [exact B|].
    clear A B W1 W2 Hr. cbn [step] in Ho, C, D |- *. destruct (nth_error (w_comps w) ci) as [c0|] eqn:E0; [|discriminate].
    destruct (run_cop o c0) as [r c1] eqn:R. assert (r = Ok tt). { destruct r as [[]|]; [reflexivity|discriminate]. } subst r. cbn [snd] in C, D |- *.
    destruct (own_call N o c0 Hb) as [O1 O2]; [now rewrite R|]. rewrite R in O2. cbn [snd] in O2. split.
    + intros cj c Hc. destruct (Nat.eq_dec ci cj) as [<-|Hne].
      * assert (c = c0) by congruence. subst c. destruct (C ci c1) as (c' & C1 & C2); [cbn; eapply nth_replace_same; eauto|]. exists c'. split; [exact C1|congruence].
      * apply C. cbn. now rewrite nth_replace_other.
    + intros k [<-|Hk]; [exists c0; now split|]. destruct (D k Hk) as (c & D1 & D2). cbn in D1. destruct (Nat.eq_dec ci (fst (fst k))) as [Ek|Hne].
      * rewrite <- Ek in D1 |- *. rewrite (nth_replace_same _ _ _ _ E0) in D1. injection D1 as <-. exists c0. split; [exact E0|now rewrite <- O2].
      * rewrite nth_replace_other in D1 by exact Hne. now exists c.
Qed.

Lemma axes_set pd ks : NoDup (map fst (jd_comps pd)) ->
  (forall k, In k ks -> exists j, In (snd (fst k), j) (jd_comps pd) /\ has_field (component_object j) (field_of (snd k))) ->
  forall G, set_axes (map place ks) (data_template G pd) = Ok (data_template (marked ks G) pd).
Proof.
  intros Hn. induction ks as [|k ks IH]; intros Hk G; [reflexivity|]. destruct (Hk k (or_introl eq_refl)) as (j & Hj & Hf).
  cbn [map set_axes]. change (place k) with ["components"%string; snd (fst k); field_of (snd k)]. rewrite (assign_data G pd _ j _ Hn Hj Hf). cbn [bind].
  apply IH. intros k' H'. apply Hk. now right.
Qed.

Lemma run_split os l : run (os ++ l) empty_world = run l (run os empty_world).
Proof. unfold run. apply fold_left_app. Qed.
Lemma compile_pure_entry l : forall cs js n j, compile_pure l cs = Ok js -> In (n, j) js ->
  exists ci c, In (n, ci) l /\ nth_error cs ci = Some c /\ fst (jax_component c) = Ok j.
Proof.
  induction l as [|(m, ci) l IH]; intros cs js n j H Hi; cbn in H; [injection H as <-; contradiction|].
  destruct (nth_error cs ci) as [c|] eqn:E; [|discriminate]. destruct (fst (jax_component c)) as [j0|] eqn:Ej; cbn in H; [|discriminate].
  destruct (compile_pure l cs) as [js'|] eqn:El; cbn in H; [|discriminate]. injection H as <-. destruct Hi as [Hi|Hi].
  - injection Hi as <- <-. exists ci, c. split; [now left|]. now split.
  - destruct (IH _ _ _ _ El Hi) as (ci' & c' & A & B). exists ci', c'. split; [now right|exact B].
Qed.
Lemma legal_steps os ks : Forall legal os -> Forall legal (os ++ map as_step ks).
Proof. intros H. apply Forall_app. split; [exact H|]. rewrite Forall_map. apply Forall_forall. intros k _. exact I. Qed.
Lemma legal_rows i os ks : Forall legal os -> Forall legal (os ++ map (as_row i) ks).
Proof. intros H. apply Forall_app. split; [exact H|]. rewrite Forall_map. apply Forall_forall. intros k _. exact I. Qed.

Lemma vmap_lanes os ks N pi pd t : Forall legal os -> batch N pi ks (state os) ->
  compiled_by (os ++ map as_step ks) pi pd -> fst (set_vmap_dimension pi (state (os ++ map as_step ks))) = Ok t ->
  exists t', set_axes (map place ks) t = Ok t' /\
    forall i, i < N -> exists pd', compiled_by (os ++ map (as_row i) ks) pi pd' /\
      sample (slice i) t' (data_object pd) = data_object pd' /\
      sample (slice i) t' (data_object (under_jit pd)) = data_object (under_jit pd').
Proof.
  intros Hl Hb Hc Ht. pose proof (reach_always _ (legal_steps os ks Hl)) as R1. unfold compiled_by in Hc. fold (state (os ++ map as_step ks)) in Hc.
  set (w1 := state (os ++ map as_step ks)) in *.
  assert (Hp : exists p, nth_error (w_probs w1) pi = Some p).
  { cbn [step] in Hc. unfold compile in Hc. destruct (nth_error (w_probs w1) pi) as [p|]; [now exists p|discriminate]. }
  destruct Hp as [p Hp]. pose proof (contents (os ++ map as_step ks) pi) as Hn. fold w1 in Hn. rewrite Hp in Hn. destruct Hn as [_ Hn].
  assert (Hids : forall n i, In (n, i) (p_comps p) -> i < List.length (w_comps w1)) by (intros n i Hi; eapply ids_always; eauto).
  pose proof (compile_eq pi w1 p R1 Hp) as Hq. rewrite Hq in Hc. destruct (compile_pure (p_comps p) (w_comps w1)) as [js|] eqn:Ec; [|discriminate].
  cbn in Hc. injection Hc as <-. set (pd := mkJD (p_model p) (p_vmin p) (p_vmax p) js) in *.
  assert (Hnj : NoDup (map fst (jd_comps pd))) by (cbn; now rewrite (compile_names _ _ _ Ec)).
  assert (Et : t = data_template (fun _ _ => false) pd).
  { rewrite <- data_blank. unfold set_vmap_dimension in Ht. cbn [step] in Hq. destruct (compile pi w1) as [[o|e] w']; cbn [fst bind] in Hq, Ht; [|discriminate].
    injection Hq as ->. cbn in Ht. now injection Ht as <-. }
  subst t. destruct (batch_run N pi ks (state os) Hb) as (B1 & B2 & B3 & B4).
  assert (Ew1 : run (map as_step ks) (state os) = w1) by (unfold w1, state; now rewrite run_split). rewrite Ew1 in B1, B2, B3.
  assert (Hp0 : nth_error (w_probs (state os)) pi = Some p) by now rewrite <- B1.
  assert (Hids0 : forall n i, In (n, i) (p_comps p) -> i < List.length (w_comps (state os))) by (intros n i Hi; rewrite <- B2; now apply (Hids n)).
  assert (Hfields : forall k, In k ks -> exists j, In (snd (fst k), j) (jd_comps pd) /\ has_field (component_object j) (field_of (snd k))).
  { assert (Hin : forall w, nth_error (w_probs w) pi = Some p -> List.length (w_comps w) = List.length (w_comps (state os)) -> forall ks', batch N pi ks' w -> forall k, In k ks' -> In (snd (fst k), fst (fst k)) (p_comps p)).
    { intros w Hw Hwl ks'. revert w Hw Hwl. induction ks' as [|((ci, n), o) ks' IH]; intros w Hw Hwl Hb' k Hk; [contradiction|]. destruct Hb' as (L & _ & _ & _ & Hr).
      destruct Hk as [<-|Hk].
      - cbn [fst snd]. apply (lookup_assoc pi n ci w p Hw); [intros n0 i0 H0; rewrite Hwl; now apply (Hids0 n0)|exact Hn|now apply L].
      - destruct (cop_world ci o w) as [V1 V2]. apply (IH (snd (step (WCop ci o) w))); [now rewrite V1|now rewrite V2|exact Hr|exact Hk]. }
    intros k Hk. pose proof (Hin (state os) Hp0 eq_refl ks Hb k Hk) as Hi. destruct (B4 k Hk) as (c & C1 & C2). destruct (B3 _ _ C1) as (c' & C3 & C4).
    assert (Hj : exists j, In (snd (fst k), j) js).
    { assert (In (snd (fst k)) (map fst js)). { rewrite (compile_names _ _ _ Ec). apply in_map_iff. now exists (snd (fst k), fst (fst k)). }
      apply in_map_iff in H as ((m, j) & Em & Hj). cbn in Em. subst m. now exists j. }
    destruct Hj as [j Hj]. exists j. split; [exact Hj|]. destruct (compile_pure_entry _ _ _ _ _ Ec Hj) as (ci & c'' & D1 & D2 & D3).
    assert (ci = fst (fst k)). { apply assoc_in in D1, Hi; auto. congruence. } subst ci. assert (c'' = c') by congruence. subst c''.
    assert (Hr : reachable c') by (rewrite Forall_forall in R1; apply R1; eapply nth_error_In; eauto).
    rewrite (jax_value _ (reachable_Inv _ Hr)) in D3. eapply own_published; [exact D3|]. now rewrite C4. }
  exists (data_template (marked ks (fun _ _ => false)) pd). split; [now apply axes_set|]. intros i _.
  set (G := marked ks (fun _ _ => false)).
  assert (HG : forall n f, ~ In f eight -> G n f = false) by (apply (marked_eight N pi ks (state os)); [exact Hb|reflexivity]).
  pose proof (reach_always _ (legal_rows i os ks Hl)) as R2. pose proof (run_lanes i N pi ks (state os) (state os) _ (lanes_refl i _) Hb) as (L1 & L2 & L3).
  assert (Ew2 : run (map (as_row i) ks) (state os) = state (os ++ map (as_row i) ks)) by (unfold state; now rewrite run_split).
  rewrite Ew1, Ew2 in L1, L2, L3. set (w2 := state (os ++ map (as_row i) ks)) in *.
  set (js' := map (fun e => (fst e, lane_j i (G (fst e)) (snd e))) js).
  assert (Ec' : compile_pure (p_comps p) (w_comps w2) = Ok js').
  { unfold js'. eapply compile_lanes; [exact R1|exact R2|exact L2|exact L3| |exact Ec]. intros n ci f Hi. unfold G.
    apply (marks_agree N pi ks p Hn (state os)); auto. }
  exists (mkJD (p_model p) (p_vmin p) (p_vmax p) js'). split.
  { unfold compiled_by. fold (state (os ++ map (as_row i) ks)). fold w2. rewrite (compile_eq pi w2 p R2); [now rewrite Ec'|now rewrite L1]. }
  split.
  - change pd with (mkJD (jd_model pd) (jd_vmin pd) (jd_vmax pd) (jd_comps pd)) at 2. rewrite sample_data; [reflexivity|exact Hnj|exact HG|auto].
  - unfold under_jit. cbn [jd_model jd_vmin jd_vmax jd_comps]. unfold js'. rewrite (ssort_map (fun e => (fst e, lane_j i (G (fst e)) (snd e))) js) by reflexivity.
    change (mkJD (jd_model pd) (jd_vmin pd) (jd_vmax pd) (ssort (jd_comps pd))) with (mkJD (jd_model pd) (jd_vmin pd) (jd_vmax pd) (ssort js)).
    apply sample_data; [exact Hnj|exact HG|]. intros n j Hi. eapply Permutation_in; [apply perm_ssort|exact Hi].
Qed.

(** ** Rows *)
Lemma skipn_twice {A} a b (l : list A) : skipn a (skipn b l) = skipn (b + a) l.
Proof. revert l. induction b as [|b IH]; intros l; [reflexivity|]. destruct l as [|x l]; [now rewrite !skipn_nil|]. apply IH. Qed.
Lemma row_array i N t s : wf_tensor t -> t_shape t = N :: s -> i < N -> wf_tensor (row i t) /\ t_shape (row i t) = s.
Proof.
  intros Hw Hs Hi. unfold row, wf_tensor in *. rewrite Hs in *. cbn [tl t_shape t_data fold_right] in *. split; [|reflexivity].
  rewrite firstn_length, skipn_length, Hw. set (k := fold_right Nat.mul 1 s). assert (i * k + k <= N * k) by nia. lia.
Qed.
Lemma rows_cover N t s : wf_tensor t -> t_shape t = N :: s -> List.concat (map (fun i => t_data (row i t)) (seq 0 N)) = t_data t.
Proof.
  intros Hw Hs. unfold row, wf_tensor in *. rewrite Hs in *. cbn [tl t_data fold_right t_shape] in *. set (k := fold_right Nat.mul 1 s) in *.
  revert Hw. generalize (t_data t) as d. clear t Hs. induction N as [|N IH]; intros d Hd; [destruct d; [reflexivity|discriminate]|].
  cbn [seq map List.concat]. replace (0 * k) with 0 by lia. cbn [skipn]. rewrite <- seq_shift, map_map.
  rewrite <- (firstn_skipn k d) at 2. f_equal. rewrite <- (IH (skipn k d)) by (rewrite skipn_length; lia). f_equal. apply map_ext. intros i.
  now rewrite skipn_twice, Nat.mul_succ_l, Nat.add_comm.
Qed.

(** ** The tree determines the problem data *)
Lemma component_object_inj j j' : component_object j = component_object j' -> j = j'.
Proof.
  destruct j as [d m g gf mi e], j' as [d' m' g' gf' mi' e']. unfold component_object. cbn [j_ext].
  destruct e as [W lm [t|o y t|o y t|t q|f]|s [o y lo hi li|lo hi q|dv ps n|f]|a h W [|f]];
    destruct e' as [W' lm' [t'|o' y' t'|o' y' t'|t' q'|f']|s' [o' y' lo' hi' li'|lo' hi' q'|dv' ps' n'|f']|a' h' W' [|f']]; intros H;
    cbn in H; try discriminate H; injection H; intros; subst; reflexivity.
Qed.
Lemma data_object_inj pd pd' : data_object pd = data_object pd' -> pd = pd'.
Proof.
  destruct pd as [m lo hi cs], pd' as [m' lo' hi' cs']. unfold data_object, dyn. cbn [jd_model jd_vmin jd_vmax jd_comps]. intros H. injection H. clear H.
  intros Hc H1 H2 H3 H4 H5. subst. f_equal. clear - Hc. revert cs' Hc. induction cs as [|(n, j) cs IH]; intros [|(n', j') cs'] H; try discriminate; [reflexivity|].
  cbn in H. injection H as -> Hj Hr. apply component_object_inj in Hj. subst. f_equal. now apply IH.
Qed.

(** ** A concrete batch of two targets for each of two tasks *)
Definition two_targets : list call :=
  [(0, "reach"%string, OpTargetPos (mkT [2; 3] [1; 2; 3; 4; 5; 6]%R)); (1, "hold"%string, OpTargetQ (mkT [2; 2] [7; 8; 9; 10]%R))].
Lemma demo_names w ci m : (forall n, fst (step (WComponent 0 n) w) = match assoc n [("hold"%string, 1); ("reach"%string, 0)] with Some i => Ok (ORef i) | None => Err ValueError end) ->
  assoc m [("hold"%string, 1); ("reach"%string, 0)] = Some ci -> forall n', fst (step (WComponent 0 n') w) = Ok (ORef ci) <-> n' = m.
Proof.
  intros H Hm n'. rewrite H. cbn [assoc] in *. destruct (String.eqb_spec n' "hold") as [->|E1]; [|destruct (String.eqb_spec n' "reach") as [->|E2]].
  - destruct (String.eqb_spec m "hold") as [->|F1]; [injection Hm as <-; now split|]. destruct (String.eqb_spec m "reach") as [->|F2]; [|discriminate].
    injection Hm as <-. split; [discriminate|congruence].
  - destruct (String.eqb_spec m "hold") as [->|F1]; [injection Hm as <-; split; [discriminate|congruence]|].
    destruct (String.eqb_spec m "reach") as [->|F2]; [|discriminate]. injection Hm as <-. now split.
  - split; [discriminate|]. intros ->. destruct (String.eqb_spec m "hold"); [congruence|]. destruct (String.eqb_spec m "reach"); [congruence|discriminate].
Qed.
Lemma lookup_demo w c0 c1 p : nth_error (w_probs w) 0 = Some p -> p_comps p = [("hold"%string, 1); ("reach"%string, 0)] -> w_comps w = [c0; c1] ->
  forall n, fst (step (WComponent 0 n) w) = match assoc n [("hold"%string, 1); ("reach"%string, 0)] with Some i => Ok (ORef i) | None => Err ValueError end.
Proof.
  intros Hp Hc Hw n. cbn [step]. unfold component, lookup. rewrite Hp, Hc, Hw. cbn [assoc]. destruct (String.eqb n "hold"); [reflexivity|].
  destruct (String.eqb n "reach"); reflexivity.
Qed.
Lemma batch_case : Forall legal demo_prog /\ batch 2 0 two_targets (state demo_prog) /\
  exists pd t t', compiled_by (demo_prog ++ map as_step two_targets) 0 pd /\ fst (set_vmap_dimension 0 (state (demo_prog ++ map as_step two_targets))) = Ok t /\
    set_axes (map place two_targets) t = Ok t' /\
    at_path ["components"; "reach"; "target_pos"]%string (sample (slice 1) t' (data_object pd)) = Some (PArr (tvec [4; 5; 6]%R)) /\
    at_path ["components"; "hold"; "target_q"]%string (sample (slice 1) t' (data_object pd)) = Some (PArr (tvec [9; 10]%R)) /\
    at_path ["components"; "hold"; "target_q"]%string (sample (slice 0) t' (data_object pd)) = Some (PArr (tvec [7; 8]%R)).
Proof.
  split; [apply demo_prog_ok|]. split.
  - split; [|split; [|split; [|split; [vm_compute; reflexivity|split; [|split; [|split; [|split; [vm_compute; reflexivity|exact I]]]]]]]].
    + apply demo_names; [|reflexivity]. eapply lookup_demo; vm_compute; reflexivity.
    + do 2 eexists. split; [reflexivity|]. split; [reflexivity|]. split; [reflexivity|discriminate].
    + intros c Hc. vm_compute in Hc. injection Hc as <-. exact I.
    + apply demo_names; [|reflexivity]. eapply lookup_demo; vm_compute; reflexivity.
    + do 2 eexists. split; [reflexivity|]. split; [reflexivity|]. split; [reflexivity|discriminate].
    + intros c Hc. vm_compute in Hc. injection Hc as <-. exact I.
  - do 3 eexists. split; [vm_compute; reflexivity|]. split; [vm_compute; reflexivity|]. split; [vm_compute; reflexivity|].
    split; [vm_compute; reflexivity|]. split; vm_compute; reflexivity.
Qed.
