(** Lemmas behind C92: whole programs. *)
From Verif Require Import Base Lin LinFacts Mjx Typing Component Problem SpecComponent SpecJoint SpecHistory SpecTyping SpecCollision SpecTree SpecShape SpecContact SpecValue SpecProblem SpecQP SpecFit SpecSetup.
From Verif Require Import ComponentFacts ComponentFacts2 CoreFacts ProblemFacts CompThms ProbThms ShareFacts FitFacts FitFacts3 TraceFacts SetupFacts.
Open Scope nat_scope.
#[local] Arguments update_model : simpl never.
#[local] Arguments jax_component : simpl never.

Lemma usable_history m c os d : constructed c -> wf_arrays (c_at c) -> Forall wf_call os -> sound_model m -> bodies_known m (history os c) ->
  (usable m (history os c) d <-> suits m (history os c) d).
Proof.
  intros Hc Hw Ho Hm Hb. apply usable_iff; auto; [now exists c, os|]. now apply wf_core_history, arrays_core.
Qed.
Lemma suits_usable m c d : reachable c -> wf_core (c_at c) -> sound_model m -> suits m c d -> usable m c d.
Proof.
  intros Hr Hw Hm Hs. apply usable_iff; auto. unfold bodies_known. destruct Hs as [_ Hs]. destruct (a_ext (c_at c)) as [| ? []|]; auto.
  destruct Hs as (ids & ex & ps & H1 & H2 & _). eauto.
Qed.

Lemma compile_complete os pi p : Forall legal os -> Forall proper os -> problem_of (state os) pi p ->
  ((exists pd, compiled_by os pi pd) <->
   forall n i, In (n, i) (p_comps p) -> exists c d, nth_error (w_comps (state os)) i = Some c /\ complete c d).
Proof.
  intros Hl Hp Ep. destruct (compile_spec os pi p Hl Ep) as (_ & S & _). unfold compiled_by, state in *. rewrite S.
  pose proof (reach_always os Hl) as Hr. pose proof (cored_always os Hp) as Hc. unfold state in *. rewrite Forall_forall in Hr, Hc.
  split; intros H n i Hi; specialize (H n i Hi).
  - destruct H as (c & j & Hn & Hj). apply nth_error_In in Hn as Hin. 
    assert (C : compiles c j) by exact Hj. assert (Pb := C). apply availability in Pb; [|auto]. destruct Pb as (_ & P2 & _ & P3 & _).
    exists c, (Z.to_nat (j_dim j)). split; [exact Hn|]. apply compiles_iff; [auto|exact (Hc c Hin)|]. exists j. split; [exact C|].
    rewrite Z2Nat.id; [reflexivity|]. rewrite P2, (vector_gain_dim _ _ P3). lia.
  - destruct H as (c & d & Hn & Hd). apply nth_error_In in Hn as Hin. apply compiles_iff in Hd; [|auto|exact (Hc c Hin)]. destruct Hd as (j & Hj & _). eauto.
Qed.

Lemma runs_cons o os w : runs (o :: os) w <-> (exists r, fst (step o w) = Ok r) /\ runs os (snd (step o w)).
Proof.
  unfold runs. split.
  - intros H. split; [exact (H 0 o eq_refl)|]. intros k o' Hk. exact (H (S k) o' Hk).
  - intros [H1 H2] [|k] o' Hk; cbn in *; [injection Hk as <-; exact H1|exact (H2 k o' Hk)].
Qed.
Lemma runs_app os os' w : runs (os ++ os') w <-> runs os w /\ runs os' (run os w).
Proof.
  revert w. induction os as [|o os IH]; intros w; cbn [app].
  - unfold runs at 2. split; [intros H; split; [intros k ? Hk; destruct k; discriminate|exact H]|tauto].
  - rewrite !runs_cons, IH. cbn. tauto.
Qed.
Lemma runs_nil w : runs [] w. Proof. intros k o H; destruct k; discriminate. Qed.
Definition bound (m : mjmodel) (c : comp) : comp := snd (update_model m c).
Definition nm (c : comp) : string := a_name (c_at c).
Lemma nm_bound m c : nm (bound m c) = nm c. Proof. apply update_model_name. Qed.

Lemma run_news cs w : run (map WNewComp cs) w = mkW (w_comps w ++ cs) (w_probs w) /\ runs (map WNewComp cs) w.
Proof.
  revert w. induction cs as [|c cs IH]; intros w; cbn [map].
  - split; [cbn; rewrite app_nil_r; now destruct w|apply runs_nil].
  - cbn [run fold_left]. destruct (IH (snd (step (WNewComp c) w))) as [E1 E2]. split.
    + etransitivity; [exact E1|]. cbn. now rewrite <- app_assoc.
    + apply runs_cons. split; [cbn; eauto|exact E2].
Qed.
Lemma replace_mid {A} (l : list A) x y r : replace_nth (List.length l) y (l ++ x :: r) = l ++ y :: r.
Proof. induction l as [|a l IH]; [reflexivity|]. cbn. now rewrite IH. Qed.
Lemma has_name_in n m lo hi l : has_name n (mkP m lo hi l) = true <-> In n (map fst l).
Proof.
  unfold has_name. cbn. rewrite existsb_exists, in_map_iff. split.
  - intros (e & H1 & H2). apply String.eqb_eq in H2. eauto.
  - intros (e & H1 & H2). exists e. split; [exact H2|]. now apply String.eqb_eq.
Qed.

Lemma add_many m lo hi post : forall pre es, List.length es = List.length pre -> NoDup (map fst es) ->
  let w := mkW (pre ++ post) [mkP m lo hi es] in
  let os := map (WAdd 0) (seq (List.length pre) (List.length post)) in
  (runs os w <-> Forall (fun c => fst (update_model m c) = Ok tt) post /\ NoDup (map fst es ++ map nm post)) /\
  (runs os w -> run os w = mkW (pre ++ map (bound m) post) [mkP m lo hi (es ++ combine (map nm post) (seq (List.length pre) (List.length post)))]).
Proof.
  induction post as [|c post IH]; intros pre es L N w os.
  - subst w os. cbn. rewrite !app_nil_r. split; [split; [auto|intros _; apply runs_nil]|reflexivity].
  - subst os. cbn [List.length seq map]. rewrite runs_cons. cbn [run fold_left].
    assert (S : step (WAdd 0 (List.length pre)) w =
      if has_name (nm c) (mkP m lo hi es) then (Err ValueError, w) else
      match update_model m c with
      | (Err e, c') => (Err e, mkW (pre ++ c' :: post) [mkP m lo hi es])
      | (Ok _, c') => (Ok ODone, mkW (pre ++ c' :: post) [mkP m lo hi (es ++ [(nm c', List.length pre)])])
      end).
    { subst w. cbn [step]. unfold add_component. cbn [w_probs w_comps nth_error p_model p_vmin p_vmax p_comps]. rewrite nth_error_app2, Nat.sub_diag by reflexivity. cbn [nth_error]. fold (nm c).
      destruct (has_name (nm c) (mkP m lo hi es)); [reflexivity|]. destruct (update_model m c) as [[[]|e] c']; unfold set_comp, set_prob; cbn; now rewrite replace_mid. }
    rewrite S. destruct (has_name (nm c) (mkP m lo hi es)) eqn:Eh.
    + apply has_name_in in Eh. split.
      * split; [intros [[r X] _]; discriminate|]. intros [_ X]. exfalso. revert X. apply in_split in Eh as (l1 & l2 & ->). rewrite <- app_assoc. cbn. intros X.
        apply NoDup_remove_2 in X. apply X. apply in_or_app. right. apply in_or_app. right. now left.
      * intros [[r X] _]; discriminate.
    + assert (Ni : ~ In (nm c) (map fst es)). { intros X. apply (has_name_in (nm c) m lo hi es) in X. congruence. }
      destruct (update_model m c) as [[[]|e] c'] eqn:U; cbn [fst snd].
      * assert (Ec : c' = bound m c) by (unfold bound; now rewrite U). assert (En : nm c' = nm c) by (rewrite Ec; apply nm_bound).
        assert (N' : NoDup (map fst (es ++ [(nm c', List.length pre)]))).
        { rewrite map_app. cbn. rewrite En. apply NoDup_Add with (a := nm c) (l := map fst es); [|auto]. pose proof (Add_app (nm c) (map fst es) []) as A. now rewrite app_nil_r in A. }
        specialize (IH (pre ++ [c']) (es ++ [(nm c', List.length pre)])). cbn zeta in IH. rewrite !app_length in IH. cbn [List.length] in IH. rewrite Nat.add_1_r, L, Nat.add_1_r in IH. specialize (IH eq_refl N').
        rewrite <- !app_assoc in IH. cbn [app] in IH. destruct IH as [I1 I2].
        assert (EN : map fst (es ++ [(nm c', List.length pre)]) ++ map nm post = map fst es ++ map nm (c :: post)) by (rewrite map_app, <- app_assoc; cbn; now rewrite En).
        rewrite EN in I1. split.
        -- rewrite I1. split.
           ++ intros [_ [F X]]. split; [constructor; [now rewrite U|exact F]|exact X].
           ++ intros [F X]. split; [eauto|]. split; [exact (Forall_inv_tail F)|exact X].
        -- intros [_ R]. etransitivity; [apply I2, R|]. cbn [map combine seq]. rewrite En, Ec. reflexivity.
      * split.
        -- split; [intros [[r X] _]; discriminate|]. intros [F _]. apply Forall_inv in F. rewrite U in F. discriminate.
        -- intros [[r X] _]; discriminate.
Qed.
Lemma limit_vector_fits m t : wf_tensor t -> ((exists v, limit_vector m t = Ok v) <-> limit_fits m t).
Proof.
  intros Hw. split.
  - intros [v Hv]. apply limit_vector_ok in Hv as [_ [(x & -> & _)|[H _]]]; auto; [now left|now right].
  - intros [H|H]; [destruct (wf_scalar _ Hw H) as [x E]|]; eexists; apply limit_vector_complete; [left; exists x|right; split; [exact H|reflexivity]].
    split; [|reflexivity]. destruct t; cbn in *; now subst.
Qed.

Lemma setup_runs m lo hi cs : wf_tensor lo -> wf_tensor hi ->
  (runs (setup m lo hi cs) empty_world <->
   limit_fits m lo /\ limit_fits m hi /\ Forall (fun c => fst (update_model m c) = Ok tt) cs /\ NoDup (map nm cs)) /\
  (runs (setup m lo hi cs) empty_world -> exists vl vh, limit_vector m lo = Ok vl /\ limit_vector m hi = Ok vh /\
     state (setup m lo hi cs) = mkW (map (bound m) cs) [mkP m vl vh (combine (map nm cs) (seq 0 (List.length cs)))]).
Proof.
  intros Wl Wh. unfold setup. rewrite runs_cons, runs_app.
  assert (S : step (WNewProblem m lo hi) empty_world = match new_problem m lo hi with Ok p => (Ok (ORef 0), mkW [] [p]) | Err e => (Err e, empty_world) end) by reflexivity.
  unfold state. cbn [run fold_left]. rewrite S. unfold new_problem.
  rewrite <- (limit_vector_fits m lo Wl), <- (limit_vector_fits m hi Wh).
  destruct (limit_vector m lo) as [vl|e]; cbn [bind]; [|split; [split; [intros [[r X] _]; discriminate|intros [[v X] _]; discriminate]|intros [[r X] _]; discriminate]].
  destruct (limit_vector m hi) as [vh|e]; cbn [bind]; [|split; [split; [intros [[r X] _]; discriminate|intros (_ & [v X] & _); discriminate]|intros [[r X] _]; discriminate]].
  cbn [fst snd]. destruct (run_news cs (mkW [] [mkP m vl vh []])) as [R1 R2]. cbn [w_comps w_probs app] in R1. rewrite R1.
  destruct (add_many m vl vh cs [] [] eq_refl (NoDup_nil _)) as [A1 A2]. cbn [app List.length map] in A1, A2. rewrite A1. split.
  - split; [intros (_ & _ & X & Y); repeat split; eauto|intros (_ & _ & X & Y); repeat split; eauto].
  - intros (_ & _ & X). exists vl, vh. split; [reflexivity|]. split; [reflexivity|]. fold (run (map WNewComp cs ++ map (WAdd 0) (seq 0 (List.length cs))) (mkW [] [mkP m vl vh []])).
    unfold run at 1. rewrite fold_left_app. fold (run (map WNewComp cs) (mkW [] [mkP m vl vh []])). rewrite R1. fold (run (map (WAdd 0) (seq 0 (List.length cs))) (mkW cs [mkP m vl vh []])).
    apply A2, A1, X.
Qed.
Lemma setup_legal m lo hi cs : Forall constructed cs -> Forall legal (setup m lo hi cs).
Proof.
  intros H. unfold setup. constructor; [exact I|]. apply Forall_app. split; [|apply Forall_map, Forall_forall; intros; exact I].
  apply Forall_map. eapply Forall_impl; [|exact H]. auto.
Qed.
Lemma setup_proper m lo hi cs : Forall (fun c => wf_arrays (c_at c)) cs -> Forall proper (setup m lo hi cs).
Proof.
  intros H. unfold setup. constructor; [exact I|]. apply Forall_app. split; [|apply Forall_map, Forall_forall; intros; exact I].
  apply Forall_map. eapply Forall_impl; [|exact H]. auto.
Qed.
Lemma made_reachable c : constructed c -> reachable c. Proof. intros H. now exists c, []. Qed.
Lemma in_entries m cs : forall k n i, In (n, i) (combine (map nm cs) (seq k (List.length cs))) ->
  exists c, nth_error cs (i - k) = Some c /\ k <= i /\ n = nm c /\ nth_error (map (bound m) cs) (i - k) = Some (bound m c).
Proof.
  induction cs as [|c cs IH]; intros k n i H; cbn in H; [destruct H|]. destruct H as [H|H].
  - injection H as <- <-. rewrite Nat.sub_diag. exists c. cbn. auto.
  - apply IH in H as (c' & H1 & H2 & H3 & H4). exists c'. replace (i - k) with (S (i - S k)) by lia. cbn. repeat split; auto. lia.
Qed.
Lemma entries_in cs : forall k i c, nth_error cs i = Some c -> In (nm c, k + i) (combine (map nm cs) (seq k (List.length cs))).
Proof.
  induction cs as [|c0 cs IH]; intros k [|i] c H; cbn in *; try discriminate.
  - injection H as ->. left. now rewrite Nat.add_0_r.
  - right. replace (k + S i) with (S k + i) by lia. now apply IH.
Qed.
Lemma setup_iff m lo hi cs : sound_model m -> wf_tensor lo -> wf_tensor hi -> Forall constructed cs -> Forall (fun c => wf_arrays (c_at c)) cs -> Forall (bodies_known m) cs ->
  (runs (setup m lo hi cs) empty_world /\ (exists pd, compiled_by (setup m lo hi cs) 0 pd) <->
   limit_fits m lo /\ limit_fits m hi /\ NoDup (map nm cs) /\ Forall (fun c => exists d, suits m c d) cs).
Proof.
  intros Hm Wl Wh Hc Hw Hb. destruct (setup_runs m lo hi cs Wl Wh) as [S1 S2].
  assert (C : runs (setup m lo hi cs) empty_world -> ((exists pd, compiled_by (setup m lo hi cs) 0 pd) <-> Forall (fun c => exists d, complete (bound m c) d) cs)).
  { intros R. destruct (S2 R) as (vl & vh & _ & _ & E).
    rewrite (compile_complete _ 0 (mkP m vl vh (combine (map nm cs) (seq 0 (List.length cs)))) (setup_legal m lo hi cs Hc) (setup_proper m lo hi cs Hw)) by (unfold problem_of; now rewrite E).
    rewrite E. cbn [p_comps w_comps]. split.
    - intros H. apply Forall_forall. intros c Hin. apply In_nth_error in Hin as [i Hi]. pose proof (entries_in cs 0 i c Hi) as Hen. destruct (H _ _ Hen) as (c' & d & N & D).
      cbn in N. rewrite (map_nth_error (bound m) i cs Hi) in N. injection N as <-. eauto.
    - intros H n i Hin. destruct (in_entries m cs 0 n i Hin) as (c & N & _ & _ & N'). rewrite Nat.sub_0_r in *. apply nth_error_In in N. rewrite Forall_forall in H. destruct (H c N) as [d D]. exists (bound m c), d. auto. }
  rewrite Forall_forall in Hc, Hw, Hb.
  assert (U : forall c, In c cs -> forall d, (fst (update_model m c) = Ok tt /\ complete (bound m c) d <-> suits m c d)).
  { intros c Hin d. rewrite <- usable_iff; [|now apply made_reachable, Hc|now apply arrays_core, Hw|exact Hm|now apply Hb]. unfold usable, bound.
    now rewrite (compiles_iff _ d (bound_reachable m c (made_reachable c (Hc c Hin))) (bound_core m c (arrays_core _ (Hw c Hin)))). }
  split.
  - intros [R X]. apply (C R) in X. apply S1 in R as (R1 & R2 & R3 & R4). repeat split; auto. rewrite Forall_forall in *. intros c Hin. destruct (X c Hin) as [d D]. exists d. apply U; auto.
  - intros (R1 & R2 & R4 & X). assert (R : runs (setup m lo hi cs) empty_world).
    { apply S1. repeat split; auto. rewrite Forall_forall in *. intros c Hin. destruct (X c Hin) as [d D]. apply (U c Hin) in D. tauto. }
    split; [exact R|]. apply (C R). rewrite Forall_forall in *. intros c Hin. destruct (X c Hin) as [d D]. exists d. apply (U c Hin) in D. tauto.
Qed.
Lemma suits_known m c : (exists d, suits m c d) -> bodies_known m c.
Proof.
  intros [d [_ Hs]]. unfold bodies_known. destruct (a_ext (c_at c)) as [| ? []|]; auto. destruct Hs as (ids & ex & ps & H1 & H2 & _). eauto.
Qed.
Lemma suits_unique m c d d' : wf_names m -> suits m c d -> suits m c d' -> d = d'.
Proof.
  intros Wn [_ H] [_ H']. destruct (a_ext (c_at c)) as [cost lm [t|o t|o t|j|f]|sdg [p|j|s|f]|act h soft [|f]].
  - apply Nat2Z.inj. destruct H, H'. congruence.
  - apply Nat2Z.inj. destruct H as (_ & H & _), H' as (_ & H' & _). congruence.
  - apply Nat2Z.inj. destruct H as (_ & H & _), H' as (_ & H' & _). congruence.
  - destruct H as (_ & _ & H & _), H' as (_ & _ & H' & _). congruence.
  - apply Nat2Z.inj. destruct H, H'. congruence.
  - apply Nat2Z.inj. destruct H, H'. congruence.
  - destruct H as (_ & H & _), H' as (_ & H' & _). congruence.
  - destruct H as (ids & ex & ps & A1 & A2 & A3 & A4), H' as (ids' & ex' & ps' & B1 & B2 & B3 & B4).
    rewrite (lists_inj _ _ _ _ Wn B1 A1), (refers2_all_inj _ _ _ _ Wn B2 A2) in B3. destruct (sc_n s =? -1)%Z; [|lia]. rewrite A4, B4. eapply checks_same; eauto.
  - apply Nat2Z.inj. congruence.
  - destruct H as (_ & _ & H), H' as (_ & _ & H'). congruence.
  - apply Nat2Z.inj. destruct H, H'. congruence.
Qed.
Lemma setup_result m lo hi cs : sound_model m -> wf_tensor lo -> wf_tensor hi -> Forall constructed cs -> Forall (fun c => wf_arrays (c_at c)) cs ->
  limit_fits m lo -> limit_fits m hi -> NoDup (map nm cs) -> Forall (fun c => exists d, suits m c d) cs ->
  tidy m (setup m lo hi cs) /\
  exists pd, compiled_by (setup m lo hi cs) 0 pd /\ jd_model pd = m /\ limit_means (m_nv m) lo (jd_vmin pd) /\ limit_means (m_nv m) hi (jd_vmax pd) /\
    Forall2 (fun c e => fst e = nm c /\ compiles (bound m c) (snd e) /\ exists d, suits m c d /\ j_dim (snd e) = Z.of_nat d) cs (jd_comps pd).
Proof.
  intros Hm Wl Wh Hc Hw Fl Fh Nd Hs.
  assert (Hb : Forall (bodies_known m) cs) by (eapply Forall_impl; [|exact Hs]; apply suits_known).
  destruct (proj2 (setup_iff m lo hi cs Hm Wl Wh Hc Hw Hb)) as [R [pd Hpd]]; [auto|].
  split.
  { unfold tidy. split; [exact Hm|]. split; [|split; [|split; [|split]]].
    - now apply setup_legal.
    - unfold setup. constructor; [reflexivity|]. apply Forall_app. split; apply Forall_map, Forall_forall; intros; exact I.
    - unfold setup. constructor; [now split|]. apply Forall_app. split; apply Forall_map, Forall_forall; intros; exact I.
    - now apply setup_proper.
    - intros k o Hk _. left. exact (R k o Hk). }
  exists pd. split; [exact Hpd|]. destruct (proj2 (setup_runs m lo hi cs Wl Wh) R) as (vl & vh & Vl & Vh & E).
  destruct (compile_spec (setup m lo hi cs) 0 (mkP m vl vh (combine (map nm cs) (seq 0 (List.length cs)))) (setup_legal m lo hi cs Hc)) as (S & _); [unfold problem_of; now rewrite E|].
  destruct (proj1 (S pd) Hpd) as (P1 & P2 & P3 & P4). clear S. rewrite E in P4. cbn [p_model p_vmin p_vmax p_comps w_comps] in *. split; [exact P1|].
  split; [rewrite P2; now apply limit_iff|]. split; [rewrite P3; now apply limit_iff|].
  assert (G : forall pre cs js, Forall constructed cs -> Forall (fun c => wf_arrays (c_at c)) cs -> Forall (fun c => exists d, suits m c d) cs ->
     Forall2 (fun (e : string * nat) (r : string * jaxc) => fst r = fst e /\ exists c, nth_error (pre ++ map (bound m) cs) (snd e) = Some c /\ fst (jax_component c) = Ok (snd r)) (combine (map nm cs) (seq (List.length pre) (List.length cs))) js ->
     Forall2 (fun c e => fst e = nm c /\ compiles (bound m c) (snd e) /\ exists d, suits m c d /\ j_dim (snd e) = Z.of_nat d) cs js); [|exact (G [] cs _ Hc Hw Hs P4)].
  clear - Hm. intros pre cs. revert pre. induction cs as [|c cs IH]; intros pre js Hc Hw Hs H; cbn in H; inversion H as [|? r ? l [H1 (c' & H2 & H3)] H4]; subst; constructor.
  - cbn in H1, H2. rewrite nth_error_app2, Nat.sub_diag in H2 by reflexivity. injection H2 as <-. split; [exact H1|]. split; [exact H3|].
    apply Forall_inv in Hc, Hw, Hs. destruct Hs as [d D]. exists d. split; [exact D|].
    destruct (suits_usable m c d (made_reachable c Hc) (arrays_core _ Hw) Hm D) as [_ (j & Hj & Ed)]. unfold compiles, bound in *. congruence.
  - apply (IH (pre ++ [bound m c])); [exact (Forall_inv_tail Hc)|exact (Forall_inv_tail Hw)|exact (Forall_inv_tail Hs)|]. rewrite app_length, Nat.add_1_r, <- app_assoc. exact H4.
Qed.
