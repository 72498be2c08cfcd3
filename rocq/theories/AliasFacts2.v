(** A kept list matters at the next binding and not before. *)
From Verif Require Import Base Lin Mjx Typing Component Problem ProblemFacts Alias SpecAlias AliasFacts.
Open Scope nat_scope.

(** A component without the contents of the lists it keeps. *)
Definition bare_ext (e : ext) : ext :=
  match e with
  | XTask c lm (TJoint j) => XTask c lm (TJoint (mkJT None (jt_target j) (jt_qidx j)))
  | XBarrier s (BJoint j) => XBarrier s (BJoint (mkJB None (jb_qmin j) (jb_qmax j) (jb_qidx j)))
  | XBarrier s (BSelf k) => XBarrier s (BSelf (mkSC (sc_dmin k) [] [] (sc_excl k) (sc_pairs k) (sc_n k)))
  | _ => e
  end.
Definition bare (c : comp) : comp := mkC (set_a_ext (c_at c) (bare_ext (a_ext (c_at c)))) (c_modified c) (c_cache c).
Lemma bare_show o c : bare (show o c) = bare c.
Proof.
  destruct c as [[n m g gf d mk mi e] f ch]; unfold bare, show; cbn. f_equal. unfold set_a_ext; cbn. f_equal. destruct o; cbn; destruct e as [c0 lm []|s []|]; reflexivity.
Qed.

Definition plain_op (o : cop) : Prop := match o with OpModel _ | OpAssign _ => False | _ => True end.
Definition blind {A} (m : M A) : Prop := forall c, m (bare c) = (fst (m c), bare (snd (m c))).
Lemma blind_bind {A B} (m : M A) (f : A -> M B) : blind m -> (forall x, blind (f x)) -> blind (mbind m f).
Proof. intros H1 H2 c. unfold mbind. rewrite (H1 c). destruct (m c) as [[x|e] c']; cbn [fst snd]; [apply H2|reflexivity]. Qed.
Lemma blind_seq {A B} (m : M A) (f : M B) : blind m -> blind f -> blind (mseq m f).
Proof. intros; apply blind_bind; auto. Qed.
Lemma blind_ret {A} (x : A) : blind (ret x).
Proof. intros c; reflexivity. Qed.
Lemma blind_raise {A} e : blind (@raise A e).
Proof. intros c; reflexivity. Qed.
Lemma blind_lift {A} (r : res A) : blind (lift r).
Proof. intros c; reflexivity. Qed.
Lemma blind_read {A} (f : attrs -> res A) : (forall a, f (set_a_ext a (bare_ext (a_ext a))) = f a) -> blind (read f).
Proof. intros H c. unfold read; cbn. rewrite H. reflexivity. Qed.
Lemma blind_seta f : (forall a, f (set_a_ext a (bare_ext (a_ext a))) = set_a_ext (f a) (bare_ext (a_ext (f a)))) -> blind (seta f).
Proof. intros H c. unfold seta, bare; cbn. rewrite H. reflexivity. Qed.
Lemma blind_force : blind force_mask.
Proof.
  unfold force_mask. apply blind_bind; [apply blind_read; reflexivity|]. intros [l|]; [apply blind_ret|].
  apply blind_bind; [apply blind_read; reflexivity|]. intros d. destruct (d =? -1)%Z; [apply blind_raise|].
  apply blind_bind; [apply blind_read; reflexivity|]. intros p. apply blind_seq; apply blind_seta; reflexivity.
Qed.
Lemma blind_mask : blind mask.
Proof. apply blind_seq; [apply blind_force|apply blind_read; reflexivity]. Qed.
Lemma blind_mask_idxs : blind mask_idxs.
Proof. apply blind_seq; [apply blind_force|apply blind_read; reflexivity]. Qed.
Lemma bare_build a : build_ext (set_a_ext a (bare_ext (a_ext a))) = build_ext a.
Proof.
  destruct a as [n m g gf d mk mi e]; cbn [set_a_ext a_ext a_name a_model a_gain a_gain_fn a_dim a_mask a_mask_idxs].
  destruct e as [c0 lm []|s []|]; reflexivity.
Qed.
Lemma blind_build : blind build_component.
Proof.
  unfold build_component.
  apply blind_bind; [apply blind_read; reflexivity|]; intros d. apply blind_bind; [apply blind_read; reflexivity|]; intros m.
  apply blind_bind; [apply blind_read; reflexivity|]; intros g. apply blind_bind; [apply blind_read; reflexivity|]; intros gf.
  apply blind_bind; [apply blind_mask_idxs|]; intros mi. apply blind_bind; [apply blind_read; intros a; apply bare_build|]; intros e. apply blind_ret.
Qed.
Lemma blind_jax : blind jax_component.
Proof.
  unfold jax_component. apply blind_bind; [apply blind_read; reflexivity|]. intros [m|]; [|apply blind_raise].
  apply blind_bind; [apply blind_read; reflexivity|]. intros d. destruct (d =? -1)%Z; [apply blind_raise|].
  intros c. change (c_modified (bare c)) with (c_modified c). change (c_cache (bare c)) with (c_cache c). destruct (c_modified c).
  - rewrite blind_build. destruct (build_component c) as [[j|e] c']; reflexivity.
  - destruct (c_cache c); reflexivity.
Qed.
Definition p_min_body (t : tensor) (sdg : R) (p : pbar_at) : M unit :=
  mdo idx <- mask_idxs;
  mdo t' <- (if Nat.eqb (ndim t) 0
             then mdo x <- lift (scalar_of t); ret (tvec (vconst (List.length idx) x))
             else mdo bad <- lift (last_dim_neq t (Z.of_nat (List.length idx)));
                  if bad : bool then raise ValueError else ret t);
  if negb (includes_min (pb_lt p)) then ret tt
  else seta (fun a => set_a_ext a (XBarrier sdg (BPos (mkPB (pb_obj p) (pb_lt p) (pb_lt_idxs p) t' (pb_max p))))).
Lemma blind_p_min t sdg p : blind (p_min_body t sdg p).
Proof.
  apply blind_bind; [apply blind_mask_idxs|]; intros idx. apply blind_bind; [|intros t'; destruct (negb _); [apply blind_ret|apply blind_seta; reflexivity]].
  destruct (Nat.eqb (ndim t) 0); (apply blind_bind; [apply blind_lift|]); intros x; [apply blind_ret|destruct x; [apply blind_raise|apply blind_ret]].
Qed.
Lemma p_min_pos t sdg p c : a_ext (c_at c) = XBarrier sdg (BPos p) -> update_p_min t c = p_min_body t sdg p c.
Proof. intros E. unfold update_p_min. unfold mbind at 1, read at 1. rewrite E. reflexivity. Qed.
Definition p_max_body (t : tensor) (sdg : R) (p : pbar_at) : M unit :=
  mdo idx <- mask_idxs;
  mdo t' <- (if Nat.eqb (ndim t) 0
             then mdo x <- lift (scalar_of t); ret (tvec (vconst (List.length idx) x))
             else mdo bad <- lift (last_dim_neq t (Z.of_nat (List.length idx)));
                  if bad : bool then raise ValueError else ret t);
  if negb (includes_max (pb_lt p)) then ret tt
  else seta (fun a => set_a_ext a (XBarrier sdg (BPos (mkPB (pb_obj p) (pb_lt p) (pb_lt_idxs p) (pb_min p) t')))).
Lemma blind_p_max t sdg p : blind (p_max_body t sdg p).
Proof.
  apply blind_bind; [apply blind_mask_idxs|]; intros idx. apply blind_bind; [|intros t'; destruct (negb _); [apply blind_ret|apply blind_seta; reflexivity]].
  destruct (Nat.eqb (ndim t) 0); (apply blind_bind; [apply blind_lift|]); intros x; [apply blind_ret|destruct x; [apply blind_raise|apply blind_ret]].
Qed.
Lemma p_max_pos t sdg p c : a_ext (c_at c) = XBarrier sdg (BPos p) -> update_p_max t c = p_max_body t sdg p c.
Proof. intros E. unfold update_p_max. unfold mbind at 1, read at 1. rewrite E. reflexivity. Qed.
Ltac by_kind := intros [[n m g gf d mk mi e] fl ch]; destruct e as [c0 lm []|s []|];
  try reflexivity.
Lemma blind_cop o : plain_op o -> blind (run_cop o).
Proof.
  destruct o; intros H; try destruct H; cbn [run_cop].
  - unfold update_gain. destruct (Nat.ltb 1 (ndim t)); [apply blind_raise|apply blind_seta; reflexivity].
  - unfold update_cost. destruct (Nat.ltb 2 (ndim t)); by_kind.
  - by_kind. unfold update_target_com, mbind, read, raise, seta, lift, bare; cbn. destruct (last_dim_neq t d) as [[]|]; reflexivity.
  - by_kind. unfold update_target_pos, mbind, read, raise, seta, lift, bare; cbn. destruct (last_dim_neq t d) as [[]|]; reflexivity.
  - destruct f; by_kind. unfold update_target_frame, mbind, read, raise, seta, lift, bare; cbn. destruct (last_dim_neq t 7) as [[]|]; reflexivity.
  - by_kind. unfold update_target_q, mbind, read, raise, seta, lift, ret, bare; cbn. destruct (d =? -1)%Z; [reflexivity|]. destruct (last_dim_neq t d) as [[]|]; reflexivity.
  - intros c. destruct (a_ext (c_at c)) as [c0 lm k|sdg []|] eqn:E;
      try (destruct c as [[n m g gf d mk mi e] fl ch]; cbn in E; subst e; try destruct k; reflexivity).
    rewrite (p_min_pos t sdg p c E), (p_min_pos t sdg p (bare c)) by (cbn; rewrite E; reflexivity). apply blind_p_min.
  - intros c. destruct (a_ext (c_at c)) as [c0 lm k|sdg []|] eqn:E;
      try (destruct c as [[n m g gf d mk mi e] fl ch]; cbn in E; subst e; try destruct k; reflexivity).
    rewrite (p_max_pos t sdg p c E), (p_max_pos t sdg p (bare c)) by (cbn; rewrite E; reflexivity). apply blind_p_max.
  - by_kind. unfold update_q_min, mbind, read, raise, seta, lift, ret, bare; cbn. destruct (last_dim t) as [n0|]; [|reflexivity]. unfold dim; cbn. destruct (d =? -1)%Z; [reflexivity|]. destruct (negb _); reflexivity.
  - by_kind. unfold update_q_max, mbind, read, raise, seta, lift, ret, bare; cbn. destruct (last_dim t) as [n0|]; [|reflexivity]. unfold dim; cbn. destruct (d =? -1)%Z; [reflexivity|]. destruct (negb _); reflexivity.
  - apply blind_bind; [apply blind_mask|intros; apply blind_ret].
  - apply blind_bind; [apply blind_mask_idxs|intros; apply blind_ret].
  - apply blind_bind; [apply blind_jax|intros; apply blind_ret].
Qed.

(** ** Worlds that differ only in the lists kept by the components in [P]. *)
Definition alike (P : nat -> Prop) (cs cs' : list comp) : Prop :=
  List.length cs = List.length cs' /\ forall i c c', nth_error cs i = Some c -> nth_error cs' i = Some c' -> bare c = bare c' /\ (~ P i -> c = c').
Lemma alike_refl P cs : alike P cs cs.
Proof. split; auto. intros i c c' H H'. rewrite H in H'; injection H' as ->. auto. Qed.
Lemma alike_nth P cs cs' i : alike P cs cs' ->
  (nth_error cs i = None /\ nth_error cs' i = None) \/ exists c c', nth_error cs i = Some c /\ nth_error cs' i = Some c' /\ bare c = bare c' /\ (~ P i -> c = c').
Proof.
  intros [Hl H]. destruct (nth_error cs i) as [c|] eqn:E.
  - destruct (nth_error cs' i) as [c'|] eqn:E'.
    + right; exists c, c'. destruct (H i c c' E E'). auto.
    + apply nth_error_None in E'. assert (nth_error cs i <> None) by congruence. apply nth_error_Some in H0. lia.
  - left; split; auto. apply nth_error_None in E. apply nth_error_None. lia.
Qed.
Lemma nth_replace {A} i j (x : A) l : nth_error (replace_nth i x l) j = if Nat.eqb i j then match nth_error l j with Some _ => Some x | None => None end else nth_error l j.
Proof.
  revert i j; induction l as [|y l IH]; intros i j.
  - destruct i, j; cbn; try reflexivity. destruct (Nat.eqb i j); reflexivity.
  - destruct i, j; cbn [replace_nth nth_error Nat.eqb]; auto.
Qed.
Lemma alike_replace (P : nat -> Prop) cs cs' i c c' : alike P cs cs' -> bare c = bare c' -> (~ P i -> c = c') -> alike P (replace_nth i c cs) (replace_nth i c' cs').
Proof.
  intros [Hl H] Hb Hn. split; [rewrite !replace_nth_length'; exact Hl|]. intros j x x' E E'. rewrite nth_replace in E, E'.
  destruct (Nat.eqb i j) eqn:Eq; [|eauto]. apply Nat.eqb_eq in Eq; subst j.
  destruct (nth_error cs i); [|discriminate]. destruct (nth_error cs' i); [|discriminate]. injection E as <-; injection E' as <-. auto.
Qed.
Lemma blind_same {A} (m : M A) c c' : blind m -> bare c = bare c' -> fst (m c) = fst (m c') /\ bare (snd (m c)) = bare (snd (m c')).
Proof. intros H E. pose proof (H c) as H1. rewrite E, (H c') in H1. split; [exact (f_equal fst (eq_sym H1))|exact (f_equal snd (eq_sym H1))]. Qed.
Lemma alike_compile P l cs cs' : alike P cs cs' -> fst (compile_all l cs) = fst (compile_all l cs') /\ alike P (snd (compile_all l cs)) (snd (compile_all l cs')).
Proof.
  revert cs cs'; induction l as [|[n i] l IH]; intros cs cs' H; cbn [compile_all]; auto.
  destruct (alike_nth _ _ _ i H) as [[-> ->]|(c & c' & -> & -> & Hb & Hn)]; auto.
  destruct (blind_same _ _ _ blind_jax Hb) as [H1 H2].
  assert (H3 : ~ P i -> snd (jax_component c) = snd (jax_component c')) by (intros Hp; rewrite (Hn Hp); reflexivity).
  destruct (jax_component c) as [[j|e] d], (jax_component c') as [[j'|e'] d']; cbn [fst snd] in *; try discriminate H1.
  - injection H1 as ->. destruct (IH _ _ (alike_replace P cs cs' i d d' H H2 H3)) as [H4 H5].
    destruct (compile_all l (replace_nth i d cs)) as [[js|e] ds], (compile_all l (replace_nth i d' cs')) as [[js'|e'] ds']; cbn [fst snd] in *; try discriminate H4.
    + injection H4 as ->; auto.
    + injection H4 as ->; auto.
  - injection H1 as ->. split; auto. apply alike_replace; auto.
Qed.
Definition kin_worlds (P : nat -> Prop) (w w' : world) : Prop := w_probs w = w_probs w' /\ alike P (w_comps w) (w_comps w').
Definition avoids (P : nat -> Prop) (o : wop) : Prop :=
  match o with WAdd _ i => ~ P i | WCop i (OpModel _) => ~ P i | WCop i (OpAssign _) => ~ P i | _ => True end.
Lemma alike_cop P i o : avoids P (WCop i o) -> forall c c', bare c = bare c' -> (~ P i -> c = c') ->
  fst (run_cop o c) = fst (run_cop o c') /\ bare (snd (run_cop o c)) = bare (snd (run_cop o c')) /\ (~ P i -> snd (run_cop o c) = snd (run_cop o c')).
Proof.
  intros Ha c c' Hb Hn.
  assert (Hq : plain_op o \/ ~ P i) by (destruct o; cbn in *; auto). destruct Hq as [Hq|Hq]; [|rewrite (Hn Hq); auto].
  destruct (blind_same (run_cop o) c c' (blind_cop o Hq) Hb) as [H1 H2]. split; [exact H1|]. split; [exact H2|]. intros Hp; rewrite (Hn Hp); reflexivity.
Qed.
Lemma bare_task c : is_task (bare c) = is_task c.
Proof. destruct c as [[n m g gf d mk mi e] f ch]. destruct e as [c0 lm []|s []|]; reflexivity. Qed.
Lemma bare_barrier c : is_barrier (bare c) = is_barrier c.
Proof. destruct c as [[n m g gf d mk mi e] f ch]. destruct e as [c0 lm []|s []|]; reflexivity. Qed.
Lemma alike_lookup (test : comp -> bool) P pi n w w' : (forall c, test (bare c) = test c) -> kin_worlds P w w' ->
  fst (lookup test pi n w) = fst (lookup test pi n w') /\ kin_worlds P (snd (lookup test pi n w)) (snd (lookup test pi n w')).
Proof.
  intros Ht [Hp Ha]. unfold lookup. rewrite <- Hp. destruct (nth_error (w_probs w) pi) as [p|]; [|split; [reflexivity|split; auto]].
  destruct (assoc n (p_comps p)) as [i|]; [|split; [reflexivity|split; auto]].
  destruct (alike_nth _ _ _ i Ha) as [[-> ->]|(c & c' & -> & -> & Hb & Hn)]; [split; [reflexivity|split; auto]|].
  rewrite <- (Ht c), <- (Ht c'), Hb. destruct (test (bare c')); split; try reflexivity; split; auto.
Qed.
Lemma kin_step P o w w' : avoids P o -> kin_worlds P w w' -> fst (step o w) = fst (step o w') /\ kin_worlds P (snd (step o w)) (snd (step o w')).
Proof.
  intros Hav [Hp Ha]. destruct o; cbn [step].
  - split; [cbn; destruct Ha as [-> _]; reflexivity|]. split; [exact Hp|]. cbn [snd w_comps]. destruct Ha as [Hl Ha]. split; [rewrite !app_length; cbn; lia|].
    intros i x x' E E'. destruct (Nat.lt_ge_cases i (List.length (w_comps w))) as [Hi|Hi].
    + rewrite nth_error_app1 in E, E' by lia. eauto.
    + rewrite nth_error_app2 in E, E' by lia. rewrite <- Hl in E'. rewrite E in E'. injection E' as ->; auto.
  - destruct (new_problem m vmin vmax) as [p|e]; [|split; [reflexivity|split; auto]]. split; [cbn; rewrite Hp; reflexivity|]. split; [cbn; rewrite Hp; reflexivity|exact Ha].
  - destruct (alike_nth _ _ _ ci Ha) as [[-> ->]|(c & c' & -> & -> & Hb & Hn)]; [split; [reflexivity|split; auto]|].
    destruct (alike_cop P ci o Hav c c' Hb Hn) as (H1 & H2 & H3).
    destruct (run_cop o c) as [r d], (run_cop o c') as [r' d']. cbn [fst snd] in *. rewrite H1. split; [reflexivity|]. split; [exact Hp|]. apply alike_replace; auto.
  - unfold add_component. rewrite <- Hp. destruct (nth_error (w_probs w) pi) as [p|]; [|split; [reflexivity|split; auto]].
    destruct (alike_nth _ _ _ ci Ha) as [[-> ->]|(c & c' & -> & -> & Hb & Hn)]; [split; [reflexivity|split; auto]|].
    cbn [avoids] in Hav. rewrite (Hn Hav). destruct (has_name _ p); [split; [reflexivity|split; auto]|].
    destruct (update_model (p_model p) c') as [[u|e] d]; (split; [reflexivity|]); (split; [cbn; rewrite ?Hp; reflexivity|]); cbn [snd w_comps set_prob set_comp]; apply alike_replace; auto.
  - unfold remove_component. rewrite <- Hp. destruct (nth_error (w_probs w) pi) as [p|]; [|split; [reflexivity|split; auto]].
    destruct (has_name n p); (split; [reflexivity|]); split; auto. cbn; rewrite Hp; reflexivity.
  - rewrite <- Hp. destruct (nth_error (w_probs w) pi) as [p|]; [|split; [reflexivity|split; auto]].
    destruct (update_v_min t p); (split; [reflexivity|]); split; auto. cbn; rewrite Hp; reflexivity.
  - rewrite <- Hp. destruct (nth_error (w_probs w) pi) as [p|]; [|split; [reflexivity|split; auto]].
    destruct (update_v_max t p); (split; [reflexivity|]); split; auto. cbn; rewrite Hp; reflexivity.
  - unfold compile. rewrite <- Hp. destruct (nth_error (w_probs w) pi) as [p|]; [|split; [reflexivity|split; auto]].
    destruct (alike_compile P (p_comps p) _ _ Ha) as [H1 H2].
    destruct (compile_all (p_comps p) (w_comps w)) as [[js|e] cs], (compile_all (p_comps p) (w_comps w')) as [[js'|e'] cs']; cbn [fst snd] in *; try discriminate H1; injection H1 as ->; (split; [reflexivity|]); split; auto.
  - apply alike_lookup; auto. split; auto.
  - apply alike_lookup; [apply bare_task|split; auto].
  - apply alike_lookup; [apply bare_barrier|split; auto].
Qed.
Lemma kin_outcomes P os w w' : Forall (avoids P) os -> kin_worlds P w w' -> outcomes os w = outcomes os w'.
Proof.
  intros H. revert w w'; induction H as [|o os Ho Hos IH]; intros w w' Hk; cbn [outcomes]; auto.
  destruct (kin_step P o w w' Ho Hk) as [H1 H2]. rewrite H1, (IH _ _ H2). reflexivity.
Qed.

Lemma show_all_nth r o ks cs i c : nth_error (show_all r o ks cs) i = Some c ->
  exists c0, nth_error cs i = Some c0 /\ (c = c0 \/ (c = show o c0 /\ exists k, nth_error ks i = Some k /\ holds_ref k r)).
Proof.
  revert cs i; induction ks as [|k ks IH]; intros cs i E.
  - cbn in E. exists c; auto.
  - destruct cs as [|c1 cs]; [destruct i; discriminate E|]. destruct i as [|i]; cbn [show_all nth_error] in E.
    + exists c1; split; [reflexivity|]. destruct (keeps r o k) eqn:Ek; injection E as <-; auto. right; split; auto. exists k; split; [reflexivity|].
      unfold holds_ref. destruct o; cbn in Ek; try discriminate; unfold is_ref in Ek; [destruct (k_mask k)|destruct (k_bodies k)|destruct (k_excl k)]; try discriminate; apply Nat.eqb_eq in Ek; subst; auto.
    + exact (IH cs i E).
Qed.
Lemma write_kin r o s : kin_worlds (holder s r) (s_world (snd (act_step (AWrite r o) s))) (s_world s).
Proof.
  cbn [act_step]. destruct (nth_error (s_mem s) r) as [o0|]; [|split; [reflexivity|apply alike_refl]].
  destruct (same_kind o0 o); [|split; [reflexivity|apply alike_refl]]. split; [reflexivity|]. cbn [snd s_world w_comps]. split; [apply show_all_length|].
  intros i c c' E E'. destruct (show_all_nth _ _ _ _ _ _ E) as (c0 & E0 & Hc). rewrite E' in E0; injection E0 as <-.
  destruct Hc as [->|[-> (k & Ek & Hk)]]; [auto|]. split; [apply bare_show|]. intros Hn; exfalso; apply Hn. exists k; auto.
Qed.
Theorem unnoticed_until_bound s r o os : Forall (binds_no_holder s r) os ->
  outcomes os (s_world (snd (act_step (AWrite r o) s))) = outcomes os (s_world s).
Proof. intros H. apply (kin_outcomes (holder s r)); [exact H|apply write_kin]. Qed.

(** ** Changing a list after construction is the same as changing it before. *)
Lemma show_all_snoc r o ks cs k c : List.length ks = List.length cs -> show_all r o (ks ++ [k]) (cs ++ [c]) = show_all r o ks cs ++ [if keeps r o k then show o c else c].
Proof. revert cs; induction ks as [|x ks IH]; intros [|y cs] H; try discriminate H; cbn; auto. rewrite IH; auto. Qed.
Lemma nth_changed (r : nat) (o : pyobj) (h : memory) (i : nat) : nth_error (replace_nth r o h) i = if Nat.eqb r i then match nth_error h i with Some _ => Some o | None => None end else nth_error h i.
Proof. apply nth_replace. Qed.
Lemma bodies_changed (b : option nat) (r : nat) (o o0 : pyobj) (h : memory) : nth_error h r = Some o0 -> same_kind o0 o = true ->
  bodies_arg (replace_nth r o h) b = bind (bodies_arg h b) (fun l => Ok (match o with PBodies l' => if is_ref r b then l' else l | _ => l end)).
Proof.
  intros E Ek. destruct b as [i|]; cbn [bodies_arg bind is_ref]; [|destruct o; reflexivity]. rewrite nth_changed, (Nat.eqb_sym i r). destruct (Nat.eqb r i) eqn:Ei.
  - apply Nat.eqb_eq in Ei; subst i. rewrite E. destruct o0, o; try discriminate Ek; reflexivity.
  - destruct (nth_error h i) as [[]|]; try reflexivity. destruct o; reflexivity.
Qed.
Lemma pairs_changed (b : option nat) (r : nat) (o o0 : pyobj) (h : memory) : nth_error h r = Some o0 -> same_kind o0 o = true ->
  pairs_arg (replace_nth r o h) b = bind (pairs_arg h b) (fun l => Ok (match o with PPairs l' => if is_ref r b then l' else l | _ => l end)).
Proof.
  intros E Ek. destruct b as [i|]; cbn [pairs_arg bind is_ref]; [|destruct o; reflexivity]. rewrite nth_changed, (Nat.eqb_sym i r). destruct (Nat.eqb r i) eqn:Ei.
  - apply Nat.eqb_eq in Ei; subst i. rewrite E. destruct o0, o; try discriminate Ek; reflexivity.
  - destruct (nth_error h i) as [[]|]; try reflexivity. destruct o; reflexivity.
Qed.
Lemma construct_changed a r o o0 h : list_constructor a -> nth_error h r = Some o0 -> same_kind o0 o = true ->
  match construct a h, construct a (replace_nth r o h) with
  | Some (Ok c, k), Some (x, k') => k' = k /\ x = Ok (if keeps r o k then show o c else c)
  | Some (Err e, _), Some (x, _) => x = Err e
  | _, _ => False
  end.
Proof.
  intros Hc E Ek. destruct a; cbn [list_constructor] in Hc; try contradiction; cbn [construct].
  - destruct Hc as [H1 H2]. rewrite (H1 (replace_nth r o h) h), (H2 (replace_nth r o h) h).
    destruct mask as [i|]; cbn [mask_arg bind].
    + rewrite nth_changed. destruct (Nat.eqb r i) eqn:Ei.
      * apply Nat.eqb_eq in Ei; subst i. rewrite E. destruct o0; cbn [bind]; try (destruct o; try discriminate Ek; reflexivity).
        destruct o; try discriminate Ek. cbn [bind]. unfold new_joint_task, init_task, init_component. destruct (Nat.ltb 1 (ndim (gain h))); cbn [bind]; [reflexivity|].
        destruct (Rlt_dec lm 0); cbn [bind]; [reflexivity|]. destruct (Nat.ltb 2 (ndim (cost h))); cbn [bind]; [reflexivity|]. split; [reflexivity|]. cbn [keeps k_mask is_ref]. rewrite Nat.eqb_refl. reflexivity.
      * destruct (nth_error h i) as [[]|]; cbn [bind]; try reflexivity. destruct (new_joint_task _ _ _ _ _ _) as [c|]; [|reflexivity]. split; [reflexivity|].
        replace (keeps r o (mkK (Some i) None None)) with false; [reflexivity|]. destruct o; cbn; auto. rewrite Nat.eqb_sym, Ei; reflexivity.
    + destruct (new_joint_task _ _ _ _ _ _) as [c|]; [|reflexivity]. split; [reflexivity|]. destruct o; reflexivity.
  - destruct Hc as (H1 & H2 & H3). rewrite (H1 (replace_nth r o h) h), (H2 (replace_nth r o h) h), (H3 (replace_nth r o h) h).
    destruct mask as [i|]; cbn [mask_arg bind].
    + rewrite nth_changed. destruct (Nat.eqb r i) eqn:Ei.
      * apply Nat.eqb_eq in Ei; subst i. rewrite E. destruct o0; cbn [bind]; try (destruct o; try discriminate Ek; reflexivity).
        destruct o; try discriminate Ek. cbn [bind]. unfold new_joint_barrier, init_barrier, init_component. destruct (Nat.ltb 1 (ndim (gain h))); cbn [bind]; [reflexivity|].
        split; [reflexivity|]. cbn [keeps k_mask is_ref]. rewrite Nat.eqb_refl. reflexivity.
      * destruct (nth_error h i) as [[]|]; cbn [bind]; try reflexivity. destruct (new_joint_barrier _ _ _ _ _ _ _) as [c|]; [|reflexivity]. split; [reflexivity|].
        replace (keeps r o (mkK (Some i) None None)) with false; [reflexivity|]. destruct o; cbn; auto. rewrite Nat.eqb_sym, Ei; reflexivity.
    + destruct (new_joint_barrier _ _ _ _ _ _ _) as [c|]; [|reflexivity]. split; [reflexivity|]. destruct o; reflexivity.
  - rewrite (Hc (replace_nth r o h) h), (bodies_changed _ _ _ _ _ E Ek), (pairs_changed _ _ _ _ _ E Ek).
    destruct (bodies_arg h bodies) as [l|e]; cbn [bind]; [|reflexivity]. destruct (pairs_arg h excl) as [p|e]; cbn [bind]; [|reflexivity].
    unfold new_self_collision, init_barrier, init_component. destruct (Nat.ltb 1 (ndim (gain h))); cbn [bind]; [reflexivity|]. split; [reflexivity|].
    destruct o; cbn [keeps k_mask k_bodies k_excl is_ref]; try reflexivity; [destruct (is_ref r bodies)|destruct (is_ref r excl)]; reflexivity.
Qed.
Theorem change_then_construct prog a r o : list_constructor a ->
  act_run (prog ++ [a; AWrite r o]) empty_scene = act_run (prog ++ [AWrite r o; a]) empty_scene.
Proof.
  intros Hc. unfold act_run. rewrite !fold_left_app. cbn [fold_left]. fold (act_run prog empty_scene).
  pose proof (act_run_aligned prog _ empty_aligned) as Hal. set (s := act_run prog empty_scene) in *. clearbody s. unfold aligned in Hal.
  assert (Hs' : forall s', snd (act_step a s') = match construct a (s_mem s') with
      | Some (Ok c, k) => mkS (s_mem s') (mkW (w_comps (s_world s') ++ [c]) (w_probs (s_world s'))) (s_kept s' ++ [k]) | _ => s' end)
    by (intros s'; destruct a; cbn [list_constructor] in Hc; try contradiction; cbn [act_step]; destruct (construct _ _) as [[[? | ?] ?]|]; reflexivity).
  rewrite (Hs' s), (Hs' (snd (act_step (AWrite r o) s))). cbn [act_step]. destruct (nth_error (s_mem s) r) as [o0|] eqn:E.
  - destruct (same_kind o0 o) eqn:Ek.
    + pose proof (construct_changed a r o o0 (s_mem s) Hc E Ek) as Hcc. cbn [snd s_mem s_world s_kept w_comps w_probs].
      destruct (construct a (s_mem s)) as [[[c|e] k]|]; [| |contradiction].
      * cbn [s_mem]. rewrite E, Ek. destruct (construct a (replace_nth r o (s_mem s))) as [[x k']|]; [|contradiction]. destruct Hcc as [-> ->].
        cbn [snd s_world s_kept w_comps w_probs]. rewrite show_all_snoc by exact Hal. reflexivity.
      * rewrite E, Ek. destruct (construct a (replace_nth r o (s_mem s))) as [[x k']|]; [|contradiction]. subst x. reflexivity.
    + cbn [snd]. destruct (construct a (s_mem s)) as [[[c|e] k]|]; cbn [s_mem]; rewrite E, Ek; reflexivity.
  - cbn [snd]. destruct (construct a (s_mem s)) as [[[c|e] k]|]; cbn [s_mem]; rewrite E; reflexivity.
Qed.
