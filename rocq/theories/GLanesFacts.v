(** Proofs of C122. *)
From Verif Require Import Base Lin LinFacts Mjx Typing Component Problem SpecComponent SpecProblem SpecQP Conf JaxComponents LocalIK GlobalIK SpecMotion JaxTree SpecJaxTree.
From Verif Require Import ComponentFacts ComponentFacts2 ProblemFacts ShareFacts JaxTreeFacts JaxTreeThms CompThms2 ProbThms SpecBatch BatchFacts BatchFacts2 BatchFacts3 BatchThms SpecLanes LanesFacts LanesThms LanesLoop SpecGLanes.
Open Scope nat_scope.
#[local] Arguments step : simpl never.

Section Attempts.
Context (L : lib) (grad : gradient) (O : optimizer) (m : mjmodel) (dt : R).
Lemma attempts_0 pd q st q1 v st1 : ~ attempts L grad O m dt pd 0 q st q1 v st1.
Proof. intros H. inversion H. Qed.
Lemma gsolve_value pd q st : gsolve L grad O m dt (tvec q) st pd = if Nat.eqb (List.length q) (m_nq m) then do g <- grad (fun x => loss_fn L x pd) q; Ok (vadd q (fst (o_update O g st)), map (fun x => x / dt)%R (fst (o_update O g st)), snd (o_update O g st)) else Err ValueError.
Proof. unfold gsolve. cbn [t_shape t_data tvec]. destruct (Nat.eqb _ _); [|reflexivity]. destruct (grad _ _) as [g|]; [|reflexivity]. cbn [bind]. now destruct (o_update O g st). Qed.
Lemma fed_S g k st : fed O g (S (S k)) st = fed O g (S k) (snd (o_update O g st)).
Proof. reflexivity. Qed.
Lemma attempts_iff pd k : forall q st q1 v st1, attempts L grad O m dt pd (S k) q st q1 v st1 <->
  List.length q = m_nq m /\ exists g, grad (fun x => loss_fn L x pd) q = Ok g /\ q1 = vadd q (fst (fed O g (S k) st)) /\ v = map (fun x => x / dt)%R (fst (fed O g (S k) st)) /\ st1 = snd (fed O g (S k) st).
Proof.
  assert (E : forall q st q1 v st1, gsolve L grad O m dt (tvec q) st pd = Ok (q1, v, st1) <-> List.length q = m_nq m /\ exists g, grad (fun x => loss_fn L x pd) q = Ok g /\ q1 = vadd q (fst (o_update O g st)) /\ v = map (fun x => x / dt)%R (fst (o_update O g st)) /\ st1 = snd (o_update O g st)).
  { intros. rewrite gsolve_value. destruct (Nat.eqb_spec (List.length q) (m_nq m)) as [Eq|Nq]; [|split; [discriminate|intros [X _]; contradiction]].
    destruct (grad (fun x => loss_fn L x pd) q) as [g|e]; cbn [bind].
    - split; [intros X; injection X as <- <- <-; split; [exact Eq|]; exists g; auto|]. intros (_ & g' & X & -> & -> & ->). injection X as <-. reflexivity.
    - split; [discriminate|]. intros (_ & g' & X & _). discriminate. }
  induction k as [|k IH]; intros q st q1 v st1.
  - split; [intros H; inversion H as [? ? ? ? ? H0|? ? ? ? ? ? ? ? ? ? H0]; subst; [now apply E|elim (attempts_0 _ _ _ _ _ _ H0)]|]. intros H. constructor. now apply E.
  - split.
    + intros H. inversion H as [|? ? ? q0 v0 st0 ? ? ? H0 H1]; subst. apply E in H0 as (Eq & g & Eg & -> & -> & ->). apply IH in H1 as (_ & g' & Eg' & -> & -> & ->). split; [exact Eq|]. exists g'. rewrite fed_S.
      assert (g' = g) by congruence. subst. auto.
    + intros (Eq & g & Eg & -> & -> & ->). rewrite fed_S. eapply attempts_more; [apply E; split; [exact Eq|]; exists g; split; [exact Eg|]; split; [reflexivity|]; split; reflexivity|]. apply IH. split; [exact Eq|]. exists g. auto.
Qed.
Lemma fed_forgets g k st : forgetful O -> fst (fed O g (S k) st) = fst (o_update O g st).
Proof. intros F. revert st. induction k as [|k IH]; intros st; [reflexivity|]. rewrite fed_S, IH. apply F. Qed.
Lemma attempts_idle pd k q st q1 v : forgetful O -> (exists st1, attempts L grad O m dt pd (S k) q st q1 v st1) <-> exists st1, gsolve L grad O m dt (tvec q) st pd = Ok (q1, v, st1).
Proof.
  intros F. split.
  - intros (st1 & H). apply attempts_iff in H as (Eq & g & Eg & -> & -> & _). rewrite (fed_forgets g k st F). exists (snd (o_update O g st)). rewrite gsolve_value, Eq, Nat.eqb_refl, Eg. reflexivity.
  - intros (st1 & H). exists (snd (fed O (match grad (fun x => loss_fn L x pd) q with Ok g => g | Err _ => [] end) (S k) st)). apply attempts_iff.
    assert (A : attempts L grad O m dt pd 1 q st q1 v st1) by now constructor. apply (attempts_iff pd 0) in A as (Eq & g & Eg & -> & -> & _). split; [exact Eq|]. exists g. rewrite Eg, (fed_forgets g k st F). auto.
Qed.

Lemma vattempts_lane N pds k : forall q st q1 v st1, vattempts L grad O m dt N pds k q st q1 v st1 -> forall i, i < N -> attempts L grad O m dt (pds i) k (q i) (st i) (q1 i) (v i) (st1 i).
Proof.
  intros q st q1 v st1 H i Hi. induction H as [? ? ? ? ? H|? ? ? ? ? ? ? ? ? H _ IH]; [constructor; auto|]. econstructor; [now apply H|exact IH].
Qed.
Lemma vattempts_join N pds k : forall q st q1 v st1, (forall i, i < N -> attempts L grad O m dt (pds i) (S k) (q i) (st i) (q1 i) (v i) (st1 i)) -> vattempts L grad O m dt N pds (S k) q st q1 v st1.
Proof.
  induction k as [|k IH]; intros q st q1 v st1 H.
  - constructor. intros i Hi. specialize (H i Hi). inversion H as [|? ? ? ? ? ? ? ? ? ? H0]; subst; [assumption|elim (attempts_0 _ _ _ _ _ _ H0)].
  - destruct (choose_lanes N (q 0, v 0, st 0) (fun i (x : vec * vec * o_state O) => gsolve L grad O m dt (tvec (q i)) (st i) (pds i) = Ok (fst (fst x), snd (fst x), snd x) /\ attempts L grad O m dt (pds i) (S k) (q i) (snd x) (q1 i) (v i) (st1 i))) as [x Hx].
    { intros i Hi. specialize (H i Hi). inversion H as [|? ? ? q0 v0 st0 ? ? ? H0 H1]; subst. exists (q0, v0, st0). now split. }
    apply (vattempts_more L grad O m dt N pds (S k) q st (fun i => fst (fst (x i))) (fun i => snd (fst (x i))) (fun i => snd (x i))); [intros i Hi; now apply Hx|]. apply IH. intros i Hi. now apply Hx.
Qed.
End Attempts.

Section Loop.
Variables (L : lib) (grad : gradient) (O : optimizer) (m : mjmodel) (dt : R) (k N : nat) (places : list (list string)) (p : prob) (pd0 : jdata) (GP : string -> string -> bool).
Hypothesis HGP : forall n f, GP n f = true <-> In ["components"; n; f]%string places.
Hypothesis Hn0 : NoDup (map fst (jd_comps pd0)).
Let tm := data_template GP pd0.

Lemma gto_lanes turns : forall prog1 prog2 q s tr qn, LanesLoop.ready N p pd0 GP prog1 prog2 -> stacked N places prog1 turns ->
  vmapped_gloop L grad O m dt k N tm prog1 turns q s tr qn ->
  forall i, i < N -> jitted_gloop L grad O m dt k (prog2 i) (rows_of i turns) (q i) (s i) (lane i tr) (qn i).
Proof.
  induction turns as [|ks turns IH]; intros prog1 prog2 q s tr qn R S H i Hi; inversion H as [|? ? ? ? ? pd pds v q1 st1 tr1 q2 Hc Hl Ha Hr]; subst; [constructor|].
  destruct S as (Hb & Hp & _ & Hs). destruct (ready_turn N places p pd0 GP HGP Hn0 prog1 prog2 ks pd R Hb Hp Hc) as [R' Hd]. destruct (Hd i Hi) as (pd' & C' & E'). specialize (Hl i Hi).
  assert (Ep : pds i = under_jit pd') by (apply jit_inj; unfold tm in Hl; congruence). pose proof (vattempts_lane L grad O m dt N pds k _ _ _ _ _ Ha i Hi) as A.
  cbn [rows_of map lane fst snd]. rewrite Ep in A |- *. econstructor; [exact C'|exact A|]. exact (IH _ _ _ _ _ _ R' Hs Hr i Hi).
Qed.
Lemma gof_lanes turns : forall prog1 prog2 q s, LanesLoop.ready N p pd0 GP prog1 prog2 -> stacked N places prog1 turns ->
  (forall i, i < N -> exists tr qn, jitted_gloop L grad O m dt (S k) (prog2 i) (rows_of i turns) (q i) (s i) tr qn) ->
  exists tr qn, vmapped_gloop L grad O m dt (S k) N tm prog1 turns q s tr qn.
Proof.
  induction turns as [|ks turns IH]; intros prog1 prog2 q s R S H; [exists [], q; constructor|].
  destruct S as (Hb & Hp & (pd & Hc) & Hs). destruct (ready_turn N places p pd0 GP HGP Hn0 prog1 prog2 ks pd R Hb Hp Hc) as [R' Hd].
  destruct (choose_lanes N (q 0, q 0, s 0, pd) (fun i (x : vec * vec * o_state O * jdata) => compiled_by (prog2 i ++ map (as_row i) ks) 0 (snd x) /\
      attempts L grad O m dt (under_jit (snd x)) (Datatypes.S k) (q i) (s i) (fst (fst (fst x))) (snd (fst (fst x))) (snd (fst x)) /\
      exists tr qn, jitted_gloop L grad O m dt (Datatypes.S k) (prog2 i ++ map (as_row i) ks ++ [WCompile 0]) (rows_of i turns) (fst (fst (fst x))) (snd (fst x)) tr qn)) as [x Hx].
  { intros i Hi. destruct (H i Hi) as (tr & qn & J). inversion J as [|? ? ? ? ? pd1 v1 q1 st1 tr1 q2 C1 A1 J1]; subst. exists (q1, v1, st1, pd1). cbn [fst snd]. split; [exact C1|]. split; [exact A1|eauto]. }
  destruct (IH _ _ (fun i => fst (fst (fst (x i)))) (fun i => snd (fst (x i))) R' Hs) as (tr & qn & J).
  { intros i Hi. now destruct (Hx i Hi) as (_ & _ & X). }
  exists ((q, (fun i => under_jit (snd (x i))), fun i => snd (fst (fst (x i)))) :: tr), qn. econstructor; [exact Hc| | |exact J].
  - intros i Hi. destruct (Hd i Hi) as (pd' & C' & E'). destruct (Hx i Hi) as (C'' & _).
    assert (Ep : snd (x i) = pd') by (pose proof (eq_trans (eq_sym C'') C') as X; injection X; auto). cbv beta. now rewrite Ep.
  - apply vattempts_join. intros i Hi. now destruct (Hx i Hi) as (_ & X & _).
Qed.
End Loop.

Lemma glanes_are_loops L grad O m dt k N os t places tm turns q s : Forall legal os -> fst (set_vmap_dimension 0 (state os)) = Ok t -> set_axes places t = Ok tm ->
  let prog := os ++ [WCompile 0] in stacked N places prog turns ->
  (forall tr qn, vmapped_gloop L grad O m dt (S k) N tm prog turns q s tr qn -> forall i, i < N -> jitted_gloop L grad O m dt (S k) prog (rows_of i turns) (q i) (s i) (lane i tr) (qn i)) /\
  ((forall i, i < N -> exists tr qn, jitted_gloop L grad O m dt (S k) prog (rows_of i turns) (q i) (s i) tr qn) -> exists tr qn, vmapped_gloop L grad O m dt (S k) N tm prog turns q s tr qn).
Proof.
  intros Hl Ht Ha prog Hs. destruct turns as [|ks turns].
  - split; [intros tr qn H i Hi; inversion H; subst; constructor|]. intros _. exists [], q. constructor.
  - destruct (start os t places N (ks :: turns) Hl Ht Hs ltac:(discriminate)) as (p & pd0 & GP & H1 & H2 & E & R). rewrite E in Ha. injection Ha as <-. split.
    + intros tr qn H i Hi. exact (gto_lanes L grad O m dt (S k) N places p pd0 GP H1 H2 (ks :: turns) prog (fun _ => prog) q s tr qn R Hs H i Hi).
    + intros H. exact (gof_lanes L grad O m dt k N places p pd0 GP H1 H2 (ks :: turns) prog (fun _ => prog) q s R Hs H).
Qed.

(** Without a template all lanes see the same problem. *)
Lemma gshared_to L grad O m dt k N turns : forall prog q s tr qn, vmapped_gloop L grad O m dt k N PNone prog turns q s tr qn ->
  forall i, i < N -> jitted_gloop L grad O m dt k prog (map (map as_step) turns) (q i) (s i) (lane i tr) (qn i).
Proof.
  induction turns as [|ks turns IH]; intros prog q s tr qn H i Hi; inversion H as [|? ? ? ? ? pd pds v q1 st1 tr1 q2 Hc Hl Ha Hr]; subst; [constructor|].
  specialize (Hl i Hi). cbn [sample] in Hl. apply jit_inj in Hl. pose proof (vattempts_lane L grad O m dt N pds k _ _ _ _ _ Ha i Hi) as A. cbn [map lane fst snd]. rewrite <- Hl in A |- *.
  econstructor; [exact Hc|exact A|]. exact (IH _ _ _ _ _ Hr i Hi).
Qed.
Lemma gshared_of L grad O m dt k N turns : forall prog q s, (turns <> [] -> 0 < N) ->
  (forall i, i < N -> exists tr qn, jitted_gloop L grad O m dt (S k) prog (map (map as_step) turns) (q i) (s i) tr qn) -> exists tr qn, vmapped_gloop L grad O m dt (S k) N PNone prog turns q s tr qn.
Proof.
  induction turns as [|ks turns IH]; intros prog q s HN H; [exists [], q; constructor|]. assert (N0 : 0 < N) by (apply HN; discriminate).
  destruct (H 0 N0) as (tr0 & qn0 & J0). cbn [map] in J0. inversion J0 as [|? ? ? ? ? pd v0 q0 st0 tr00 q00 C0 A0 K0]; subst.
  destruct (choose_lanes N (q 0, q 0, s 0) (fun i (x : vec * vec * o_state O) =>
      attempts L grad O m dt (under_jit pd) (S k) (q i) (s i) (fst (fst x)) (snd (fst x)) (snd x) /\
      exists tr qn, jitted_gloop L grad O m dt (S k) (prog ++ map as_step ks ++ [WCompile 0]) (map (map as_step) turns) (fst (fst x)) (snd x) tr qn)) as [x Hx].
  { intros i Hi. destruct (H i Hi) as (tr & qn & J). cbn [map] in J. inversion J as [|? ? ? ? ? pd1 v1 q1 st1 tr1 q2 C1 A1 J1]; subst. exists (q1, v1, st1). cbn [fst snd].
    assert (pd1 = pd) by (pose proof (eq_trans (eq_sym C1) C0) as X; injection X; auto). subst pd1. split; [exact A1|eauto]. }
  destruct (IH (prog ++ map as_step ks ++ [WCompile 0]) (fun i => fst (fst (x i))) (fun i => snd (x i)) (fun _ => N0)) as (tr & qn & J); [intros i Hi; now apply Hx|].
  exists ((q, (fun _ => under_jit pd), fun i => snd (fst (x i))) :: tr), qn. econstructor; [exact C0|reflexivity| |exact J]. apply vattempts_join. intros i Hi. now apply Hx.
Qed.
Lemma shared_to L So m dt N turns : forall prog q s tr qn, vmapped_loop L So m dt N PNone prog turns q s tr qn ->
  forall i, i < N -> jitted_loop L So m dt prog (map (map as_step) turns) (q i) (s i) (lane i tr) (qn i).
Proof.
  induction turns as [|ks turns IH]; intros prog q s tr qn H i Hi; inversion H as [|? ? ? ? ? pd pds v q1 tr1 q2 Hc Hl Hr]; subst; [constructor|].
  destruct (Hl i Hi) as (El & (sol & Es) & Ei). cbn [sample] in El. apply jit_inj in El. cbn [map lane fst snd]. rewrite <- El in Es |- *.
  econstructor; [exact Hc|exact Es|exact Ei|]. exact (IH _ _ _ _ _ Hr i Hi).
Qed.
Lemma shared_of L So m dt N turns : forall prog q s, (turns <> [] -> 0 < N) ->
  (forall i, i < N -> exists tr qn, jitted_loop L So m dt prog (map (map as_step) turns) (q i) (s i) tr qn) -> exists tr qn, vmapped_loop L So m dt N PNone prog turns q s tr qn.
Proof.
  induction turns as [|ks turns IH]; intros prog q s HN H; [exists [], q; constructor|]. assert (N0 : 0 < N) by (apply HN; discriminate).
  destruct (H 0 N0) as (tr0 & qn0 & J0). cbn [map] in J0. inversion J0 as [|? ? ? ? ? pd sol0 v0 q0 tr00 q00 C0 A0 I0 K0]; subst.
  destruct (choose_lanes N (q 0, q 0) (fun i (x : vec * vec) => (exists sol, solve L So m (tvec (q i)) (s i) (under_jit pd) = Ok (sol, snd x)) /\ integrate m (q i) (snd x) dt = Ok (fst x) /\
      exists tr qn, jitted_loop L So m dt (prog ++ map as_step ks ++ [WCompile 0]) (map (map as_step) turns) (fst x) (snd x) tr qn)) as [x Hx].
  { intros i Hi. destruct (H i Hi) as (tr & qn & J). cbn [map] in J. inversion J as [|? ? ? ? ? pd1 sol1 v1 q1 tr1 q2 C1 A1 I1 J1]; subst. exists (q1, v1). cbn [fst snd].
    assert (pd1 = pd) by (pose proof (eq_trans (eq_sym C1) C0) as X; injection X; auto). subst pd1. split; [eauto|]. split; [exact I1|eauto]. }
  destruct (IH (prog ++ map as_step ks ++ [WCompile 0]) (fun i => fst (x i)) (fun i => snd (x i)) (fun _ => N0)) as (tr & qn & J); [intros i Hi; now apply Hx|].
  exists ((q, (fun _ => under_jit pd), fun i => snd (x i)) :: tr), qn. econstructor; [exact C0| |exact J]. intros i Hi. split; [reflexivity|]. split; now apply Hx.
Qed.
