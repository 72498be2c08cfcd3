(** C120: whole loops, and loops of stacked poses. *)
From Verif Require Import Base Lin LinFacts Mjx Typing Component Problem SpecComponent SpecProblem SpecQP Conf JaxComponents LocalIK SpecMotion JaxTree SpecJaxTree.
From Verif Require Import ComponentFacts ComponentFacts2 ProblemFacts ShareFacts JaxTreeFacts JaxTreeThms CompThms2 ProbThms SpecBatch BatchFacts BatchFacts2 BatchFacts3 BatchThms SpecLanes LanesFacts LanesThms.
Open Scope nat_scope.
#[local] Arguments step : simpl never.

Lemma choose_lanes {A} (N : nat) (a0 : A) (P : nat -> A -> Prop) : (forall i, i < N -> exists a, P i a) -> exists f, forall i, i < N -> P i (f i).
Proof.
  induction N as [|N IH]; intros H; [exists (fun _ => a0); intros; lia|]. destruct IH as [f Hf]; [intros i Hi; apply H; lia|]. destruct (H N) as [a Ha]; [lia|].
  exists (fun i => if Nat.eqb i N then a else f i). intros i Hi. destruct (Nat.eqb_spec i N) as [->|]; [exact Ha|]. apply Hf. lia.
Qed.
Lemma state_app os l : state (os ++ l) = run l (state os).
Proof. apply run_split. Qed.
Lemma state_turn os l : state (os ++ l ++ [WCompile 0]) = snd (step (WCompile 0) (run l (state os))).
Proof. unfold state. rewrite app_assoc, !run_split. reflexivity. Qed.
Lemma compiled_at os l pd : compiled_by (os ++ l) 0 pd <-> fst (step (WCompile 0) (run l (state os))) = Ok (OData pd).
Proof. unfold compiled_by. fold (state (os ++ l)). now rewrite state_app. Qed.
Lemma jit_inj pd pd' : data_object pd = data_object pd' -> pd = pd'.
Proof. apply data_object_inj. Qed.

Section Loop.
Variables (L : lib) (So : qpsolver) (m : mjmodel) (dt : R) (N : nat) (places : list (list string)) (p : prob) (pd0 : jdata) (GP : string -> string -> bool).
Hypothesis HGP : forall n f, GP n f = true <-> In ["components"; n; f]%string places.
Hypothesis Hn0 : NoDup (map fst (jd_comps pd0)).
Let tm := data_template GP pd0.

Definition ready (prog1 : list wop) (prog2 : nat -> list wop) : Prop :=
  exists F G, tidy p (state prog1) /\ kinds p pd0 (state prog1) /\ (forall i, i < N -> tidy p (state (prog2 i)) /\ in_step i F (state prog1) (state (prog2 i))) /\
  (forall n ci f, In (n, ci) (p_comps p) -> F ci f = G n f) /\ (forall n f, ~ In f eight -> G n f = false) /\ (forall n f, G n f = true -> GP n f = true).

Lemma ready_turn prog1 prog2 ks pd : ready prog1 prog2 -> batch N 0 ks (state prog1) -> (forall q, In q (map place ks) <-> In q places) ->
  compiled_by (prog1 ++ map as_step ks) 0 pd ->
  ready (prog1 ++ map as_step ks ++ [WCompile 0]) (fun i => prog2 i ++ map (as_row i) ks ++ [WCompile 0]) /\
  forall i, i < N -> exists pd', compiled_by (prog2 i ++ map (as_row i) ks) 0 pd' /\ sample (slice i) tm (data_object (under_jit pd)) = data_object (under_jit pd').
Proof.
  intros (F & G & T & K & H & HF & H8 & HG) Hb Hp Hc. apply compiled_at in Hc.
  assert (EG : forall n f, marked ks G n f = GP n f).
  { intros n f. apply bool_iff. rewrite marked_iff, Hp, HGP. split; [|now right]. intros [X|X]; [apply HGP; now apply HG|exact X]. }
  assert (ET : forall pd', data_template (marked ks G) pd' = data_template GP pd') by (intros; now apply template_ext).
  assert (TT : forall i, i < N -> _) by (intros i Hi; destruct (H i Hi) as [T2 S2]; exact (one_turn i N ks p pd0 (state prog1) (state (prog2 i)) F G pd T T2 K Hn0 S2 HF H8 Hb Hc)).
  split.
  - exists (marks ks F), (marked ks G). rewrite state_turn.
    assert (TK : tidy p (snd (step (WCompile 0) (run (map as_step ks) (state prog1)))) /\ kinds p pd0 (snd (step (WCompile 0) (run (map as_step ks) (state prog1)))) /\
      (forall n ci f, In (n, ci) (p_comps p) -> marks ks F ci f = marked ks G n f) /\ (forall n f, ~ In f eight -> marked ks G n f = false)).
    { assert (V1 : tidy p (run (map as_step ks) (state prog1))) by (apply steps_tidy; [exact T|]; intros k Hk; apply in_map_iff in Hk as (k' & <- & _); unfold as_step; eauto).
      split; [now apply compile_tidy|]. destruct T as (R0 & Q & J & ND). destruct V1 as (R1 & P1 & I1 & _). split.
      - intros n ci c Hi Hcc. specialize (J n ci Hi). destruct (nth_error (w_comps (state prog1)) ci) as [c0|] eqn:E; [|apply nth_error_None in E; lia].
        destruct (batch_kind N 0 ks _ Hb ci c0 E) as (c' & A & B). destruct (compile_kind 0 _ R1 ci c' A) as (c'' & A' & B'). assert (c'' = c) by congruence. subst c''.
        rewrite B', B. now apply (K n ci).
      - split; [eapply (marks_agree N 0 ks p ND (state prog1)); eauto|]. eapply marked_eight; eauto. }
    destruct TK as (TK1 & TK2 & TK3 & TK4). split; [exact TK1|]. split; [exact TK2|]. split; [|split; [exact TK3|split; [exact TK4|intros n f X; now rewrite <- EG]]].
    intros i Hi. rewrite state_turn. destruct (TT i Hi) as (_ & A & _ & B & _). now split.
  - intros i Hi. destruct (TT i Hi) as (_ & _ & _ & _ & _ & _ & pd' & A & B). exists pd'. split; [now apply compiled_at|]. unfold tm. now rewrite <- ET.
Qed.

Lemma to_lanes turns : forall prog1 prog2 q s tr qn, ready prog1 prog2 -> stacked N places prog1 turns ->
  vmapped_loop L So m dt N tm prog1 turns q s tr qn ->
  forall i, i < N -> jitted_loop L So m dt (prog2 i) (rows_of i turns) (q i) (s i) (lane i tr) (qn i).
Proof.
  induction turns as [|ks turns IH]; intros prog1 prog2 q s tr qn R S H i Hi; inversion H as [|? ? ? ? ? pd pds v q1 tr1 q2 Hc Hl Hr]; subst; [constructor|].
  destruct S as (Hb & Hp & _ & Hs). destruct (ready_turn prog1 prog2 ks pd R Hb Hp Hc) as [R' Hd]. destruct (Hd i Hi) as (pd' & C' & E'). destruct (Hl i Hi) as (Ei & (sol & Hso) & Hin).
  assert (Ep : pds i = under_jit pd') by (apply jit_inj; congruence). cbn [rows_of map lane fst snd]. rewrite Ep in Hso |- *. econstructor; [exact C'|exact Hso|exact Hin|].
  exact (IH _ _ _ _ _ _ R' Hs Hr i Hi).
Qed.
Lemma of_lanes turns : forall prog1 prog2 q s, ready prog1 prog2 -> stacked N places prog1 turns ->
  (forall i, i < N -> exists tr qn, jitted_loop L So m dt (prog2 i) (rows_of i turns) (q i) (s i) tr qn) ->
  exists tr qn, vmapped_loop L So m dt N tm prog1 turns q s tr qn.
Proof.
  induction turns as [|ks turns IH]; intros prog1 prog2 q s R S H; [exists [], q; constructor|].
  destruct S as (Hb & Hp & (pd & Hc) & Hs). destruct (ready_turn prog1 prog2 ks pd R Hb Hp Hc) as [R' Hd].
  destruct (choose_lanes N (([], []), pd) (fun i (x : vec * vec * jdata) => (exists sol, compiled_by (prog2 i ++ map (as_row i) ks) 0 (snd x) /\
      solve L So m (tvec (q i)) (s i) (under_jit (snd x)) = Ok (sol, fst (fst x))) /\ integrate m (q i) (fst (fst x)) dt = Ok (snd (fst x)) /\
      exists tr qn, jitted_loop L So m dt (prog2 i ++ map (as_row i) ks ++ [WCompile 0]) (rows_of i turns) (snd (fst x)) (fst (fst x)) tr qn)) as [x Hx].
  { intros i Hi. destruct (H i Hi) as (tr & qn & J). inversion J as [|? ? ? ? ? pd1 sol1 v1 q1 tr1 q2 C1 S1 I1 J1]; subst. exists ((v1, q1), pd1). cbn [fst snd]. split; [eauto|]. split; [exact I1|eauto]. }
  destruct (IH _ _ (fun i => snd (fst (x i))) (fun i => fst (fst (x i))) R' Hs) as (tr & qn & J).
  { intros i Hi. now destruct (Hx i Hi) as (_ & _ & X). }
  exists ((q, (fun i => under_jit (snd (x i))), fun i => fst (fst (x i))) :: tr), qn. econstructor; [exact Hc| |exact J].
  intros i Hi. destruct (Hd i Hi) as (pd' & C' & E'). destruct (Hx i Hi) as ((sol & C'' & S'') & I'' & _).
  assert (Ep : snd (x i) = pd') by (pose proof (eq_trans (eq_sym C'') C') as X; injection X; auto). cbv beta. split; [now rewrite Ep|]. split; [now exists sol|exact I''].
Qed.
End Loop.

Lemma start os t places N turns : Forall legal os -> fst (set_vmap_dimension 0 (state os)) = Ok t ->
  stacked N places (os ++ [WCompile 0]) turns -> turns <> [] ->
  exists p pd0 GP, (forall n f, GP n f = true <-> In ["components"; n; f]%string places) /\ NoDup (map fst (jd_comps pd0)) /\ set_axes places t = Ok (data_template GP pd0) /\
    ready N p pd0 GP (os ++ [WCompile 0]) (fun _ => os ++ [WCompile 0]).
Proof.
  intros Hl Ht Hs Hne. destruct turns as [|ks turns]; [congruence|]. destruct Hs as (Hb & Hp & _ & _). pose proof (reach_always os Hl) as R0.
  unfold set_vmap_dimension in Ht. destruct (compile 0 (state os)) as [[o|e] w'] eqn:Ec; [|discriminate].
  assert (Hpr : exists p, nth_error (w_probs (state os)) 0 = Some p). { unfold compile in Ec. destruct (nth_error (w_probs (state os)) 0) as [p|]; [now exists p|discriminate]. }
  destruct Hpr as [p Hpr]. pose proof (compile_eq 0 (state os) p R0 Hpr) as Hq. change (step (WCompile 0) (state os)) with (compile 0 (state os)) in Hq. rewrite Ec in Hq. cbn [fst] in Hq.
  destruct (compile_pure (p_comps p) (w_comps (state os))) as [js|] eqn:Ej; [|discriminate]. cbn in Hq. injection Hq as ->. cbn [fst] in Ht. apply (f_equal (fun r => match r with Ok x => x | Err _ => PNone end)) in Ht. cbv beta iota in Ht. subst t.
  set (pd0 := mkJD (p_model p) (p_vmin p) (p_vmax p) js) in *.
  pose proof (contents os 0) as Hn. rewrite Hpr in Hn. destruct Hn as [_ Hn].
  assert (Hids : forall n i, In (n, i) (p_comps p) -> i < List.length (w_comps (state os))) by (intros n i Hi; eapply ids_always; eauto).
  assert (Hnj : NoDup (map fst (jd_comps pd0))) by (cbn; now rewrite (compile_names _ _ _ Ej)).
  assert (T0 : tidy p (state os)) by (repeat split; assumption).
  assert (E1 : state (os ++ [WCompile 0]) = snd (step (WCompile 0) (state os))) by (rewrite state_app; reflexivity).
  pose proof (compile_tidy p _ T0) as T1. rewrite <- E1 in T1.
  assert (K0 : forall n ci c, In (n, ci) (p_comps p) -> nth_error (w_comps (state os)) ci = Some c -> exists j0, In (n, j0) js /\ jax_pure (c_at c) = Ok j0).
  { intros n ci c Hi Hc. assert (In n (map fst js)) by (rewrite (compile_names _ _ _ Ej); apply in_map_iff; now exists (n, ci)).
    apply in_map_iff in H as ((n', j) & En & Hj). cbn in En. subst n'. exists j. split; [exact Hj|]. destruct (compile_pure_entry _ _ _ _ _ Ej Hj) as (ci' & c' & A & B & D).
    assert (ci' = ci) by (apply assoc_in in A, Hi; auto; congruence). subst ci'. assert (c' = c) by congruence. subst c'.
    now rewrite (jax_value _ (reachable_Inv _ (proj1 (Forall_forall _ _) R0 c (nth_error_In _ _ B)))) in D. }
  assert (K1 : kinds p pd0 (state (os ++ [WCompile 0]))).
  { intros n ci c Hi Hc. rewrite E1 in Hc. specialize (Hids n ci Hi). destruct (nth_error (w_comps (state os)) ci) as [c0|] eqn:E; [|apply nth_error_None in E; lia].
    destruct (compile_kind 0 _ R0 ci c0 E) as (c' & A & B). assert (c' = c) by congruence. subst c'. destruct (K0 n ci c0 Hi E) as (j0 & X & Y). exists j0. split; [exact X|]. now rewrite B, (jax_kind _ _ Y). }
  assert (Hfields : forall k, In k ks -> exists j, In (snd (fst k), j) (jd_comps pd0) /\ has_field (component_object j) (field_of (snd k))).
  { destruct (batch_run N 0 ks (state (os ++ [WCompile 0])) Hb) as (_ & _ & _ & B4). destruct T1 as (R1 & P1 & I1 & _).
    assert (Hin : forall w, nth_error (w_probs w) 0 = Some p -> List.length (w_comps w) = List.length (w_comps (state (os ++ [WCompile 0]))) -> forall ks', batch N 0 ks' w -> forall k, In k ks' -> In (snd (fst k), fst (fst k)) (p_comps p)).
    { intros w Hw Hwl ks'. revert w Hw Hwl. induction ks' as [|((ci, n), o) ks' IH]; intros w Hw Hwl Hb' k Hk; [contradiction|]. destruct Hb' as (Lk & _ & _ & _ & Hr).
      destruct Hk as [<-|Hk].
      - cbn [fst snd]. apply (lookup_assoc 0 n ci w p Hw); [intros n0 i0 H0; rewrite Hwl; now apply (I1 n0)|exact Hn|now apply Lk].
      - destruct (cop_world ci o w) as [V1 V2]. apply (IH (snd (step (WCop ci o) w))); [now rewrite V1|now rewrite V2|exact Hr|exact Hk]. }
    intros k Hk. pose proof (Hin _ P1 eq_refl ks Hb k Hk) as Hi. destruct (B4 k Hk) as (c & C1 & C2). pose proof (Hids _ _ Hi) as Hlt.
    destruct (nth_error (w_comps (state os)) (fst (fst k))) as [c0|] eqn:E; [|apply nth_error_None in E; lia].
    destruct (compile_kind 0 _ R0 _ c0 E) as (c' & A & B). rewrite <- E1 in A. assert (c' = c) by congruence. subst c'.
    destruct (K0 _ _ c0 Hi E) as (j0 & X & Y). exists j0. split; [exact X|]. eapply own_published; [exact Y|]. now rewrite <- B. }
  exists p, pd0, (marked ks (fun _ _ => false)). split; [intros n f; rewrite marked_iff, Hp; intuition discriminate|]. split; [exact Hnj|]. split; [now rewrite data_blank, (axes_places pd0 ks places Hnj Hp Hfields)|].
  exists (fun _ _ => false), (fun _ _ => false). split; [exact T1|]. split; [exact K1|]. split; [|split; [reflexivity|split; [reflexivity|discriminate]]].
  intros i _. split; [exact T1|apply in_step_refl].
Qed.

Lemma lanes_are_loops L So m dt N os t places tm turns q s : Forall legal os -> fst (set_vmap_dimension 0 (state os)) = Ok t -> set_axes places t = Ok tm ->
  let prog := os ++ [WCompile 0] in stacked N places prog turns ->
  (forall tr qn, vmapped_loop L So m dt N tm prog turns q s tr qn -> forall i, i < N -> jitted_loop L So m dt prog (rows_of i turns) (q i) (s i) (lane i tr) (qn i)) /\
  ((forall i, i < N -> exists tr qn, jitted_loop L So m dt prog (rows_of i turns) (q i) (s i) tr qn) -> exists tr qn, vmapped_loop L So m dt N tm prog turns q s tr qn).
Proof.
  intros Hl Ht Ha prog Hs. destruct turns as [|ks turns].
  - split; [intros tr qn H i Hi; inversion H; subst; constructor|]. intros _. exists [], q. constructor.
  - destruct (start os t places N (ks :: turns) Hl Ht Hs ltac:(discriminate)) as (p & pd0 & GP & H1 & H2 & E & R). rewrite E in Ha. injection Ha as <-. split.
    + intros tr qn H i Hi. exact (to_lanes L So m dt N places p pd0 GP H1 H2 (ks :: turns) prog (fun _ => prog) q s tr qn R Hs H i Hi).
    + intros H. exact (of_lanes L So m dt N places p pd0 GP H1 H2 (ks :: turns) prog (fun _ => prog) q s R Hs H).
Qed.

(** Before the loop, the template can be given axis 0 at the places that the turns assign. *)
Lemma template_takes_axes N os t places turns : Forall legal os -> fst (set_vmap_dimension 0 (state os)) = Ok t -> stacked N places (os ++ [WCompile 0]) turns -> turns <> [] ->
  exists tm, set_axes places t = Ok tm.
Proof. intros Hl Ht Hs Hne. destruct (start os t places N turns Hl Ht Hs Hne) as (p & pd0 & GP & _ & _ & E & _). eauto. Qed.
