(** Every setting is changed by its own setter only. *)
From Verif Require Import Base Lin LinFacts Mjx Typing Component SpecComponent ComponentFacts ComponentFacts2 SpecHistory SpecSettings.
Open Scope R_scope.
Open Scope Z_scope.
Open Scope nat_scope.
#[local] Arguments Nat.ltb : simpl never.
#[local] Arguments Nat.eqb : simpl never.

(** A method keeps a view of the attributes. *)
Definition keeps {B A} (V : attrs -> B) (m : M A) : Prop := forall c, V (c_at (snd (m c))) = V (c_at c).
Section Keeps.
Context {B : Type} (V : attrs -> B).
Lemma k_ret {A} (x : A) : keeps V (ret x). Proof. intro; reflexivity. Qed.
Lemma k_raise {A} e : keeps V (@raise A e). Proof. intro; reflexivity. Qed.
Lemma k_read {A} (f : attrs -> res A) : keeps V (read f). Proof. intro; reflexivity. Qed.
Lemma k_lift {A} (r : res A) : keeps V (lift r). Proof. intro; reflexivity. Qed.
Lemma k_bind {A C} (x : M A) (f : A -> M C) : keeps V x -> (forall a, keeps V (f a)) -> keeps V (mbind x f).
Proof. intros Hx Hf c. unfold mbind. specialize (Hx c). destruct (x c) as [[a|e] c']; cbn in *; [now rewrite (Hf a c')|exact Hx]. Qed.
Lemma k_seq {A C} (x : M A) (y : M C) : keeps V x -> keeps V y -> keeps V (mseq x y).
Proof. intros. now apply k_bind. Qed.
Lemma k_seta f : (forall a, V (f a) = V a) -> keeps V (seta f). Proof. intros H c. apply H. Qed.
Lemma k_ignore {A} (x : M A) : keeps V x -> keeps V (ignore x). Proof. intros H. apply k_bind; [exact H|intro; apply k_ret]. Qed.
(** Reading the extension: the continuation may use that it is the current one. *)
Lemma k_ext {C} (f : ext -> M C) : (forall c, V (c_at (snd (f (a_ext (c_at c)) c))) = V (c_at c)) -> keeps V (mbind (read (fun a => Ok (a_ext a))) f).
Proof. intros H c. apply H. Qed.
End Keeps.

(** Views that do not look at the model, the dimension and the mask. *)
Definition light {B} (V : attrs -> B) : Prop := forall a a', a_name a' = a_name a -> a_gain a' = a_gain a -> a_gain_fn a' = a_gain_fn a -> a_ext a' = a_ext a -> V a' = V a.
Ltac lt H := intros ?; apply H; reflexivity.

Section Light.
Context {B : Type} (V : attrs -> B) (HV : light V).
Lemma k_model m : keeps V (seta (fun a => set_a_model a m)). Proof. apply k_seta. lt HV. Qed.
Lemma k_dim d : keeps V (seta (fun a => set_a_dim a d)). Proof. apply k_seta. lt HV. Qed.
Lemma k_mask d : keeps V (seta (fun a => set_a_mask a d)). Proof. apply k_seta. lt HV. Qed.
Lemma k_midx d : keeps V (seta (fun a => set_a_mask_idxs a d)). Proof. apply k_seta. lt HV. Qed.
Lemma k_force : keeps V force_mask.
Proof.
  apply k_bind; [apply k_read|]. intros [l|]; [apply k_ret|]. apply k_bind; [apply k_read|]. intros d. destruct (d =? -1)%Z; [apply k_raise|].
  apply k_bind; [apply k_read|]. intros p. apply k_seq; [apply k_mask|apply k_midx].
Qed.
Lemma k_mask_idxs : keeps V mask_idxs. Proof. apply k_seq; [apply k_force|apply k_read]. Qed.
Lemma k_read_mask : keeps V mask. Proof. apply k_seq; [apply k_force|apply k_read]. Qed.
Lemma k_build : keeps V build_component.
Proof. unfold build_component. repeat (apply k_bind; [first [apply k_read|apply k_mask_idxs]|intros]). apply k_ret. Qed.
Lemma k_jax : keeps V jax_component.
Proof.
  apply k_bind; [apply k_read|]. intros [m|]; [|apply k_raise]. apply k_bind; [apply k_read|]. intros d. destruct (d =? -1)%Z; [apply k_raise|].
  intros c. destruct (c_modified c); [|destruct (c_cache c); reflexivity]. pose proof (k_build c) as H. destruct (build_component c) as [[j|e] c']; exact H.
Qed.
Lemma k_joint_masks m f : keeps V (bind_joint_masks m f).
Proof.
  unfold bind_joint_masks. apply k_seq; [apply k_model|]. apply k_bind; [apply k_lift|]. intros qv. apply k_seq; [apply k_mask|].
  apply k_bind.
  - destruct f as [f|]; [|apply k_ret]. destruct (negb _); [apply k_raise|]. apply k_bind; [apply k_lift|]. intros v'. apply k_seq; [apply k_mask|].
    apply k_bind; [apply k_lift|]. intros. apply k_ret.
  - intros p. apply k_seq; [apply k_midx|apply k_ret].
Qed.
Lemma k_equality m : keeps V (update_model_equality m).
Proof. unfold update_model_equality. apply k_seq; [apply k_model|]. apply k_bind; [apply k_lift|]. intros. apply k_seq; [apply k_midx|apply k_dim]. Qed.
Lemma k_self m : (forall f a, V (upd_self (fun k => mkSC (sc_dmin k) (fst (fst (fst (f k)))) (sc_excl_raw k) (snd (fst (fst (f k)))) (snd (fst (f k))) (snd (f k))) a) = V a) -> keeps V (update_model_self m).
Proof.
  intros H. assert (H' : forall g : self_at -> self_at, (forall k, sc_dmin (g k) = sc_dmin k /\ sc_excl_raw (g k) = sc_excl_raw k) -> keeps V (seta (upd_self g))).
  { intros g Hg. apply k_seta. intros a. rewrite <- (H (fun k => (sc_bodies (g k), sc_excl (g k), sc_pairs (g k), sc_n (g k))) a). apply HV;
      unfold upd_self; destruct (a_ext a) as [|s [| |k|]|]; try reflexivity. cbn. destruct (Hg k) as [E1 E2]. destruct (g k); cbn in *. now rewrite E1, E2. }
  unfold update_model_self. apply k_seq; [apply k_model|]. apply k_bind; [apply k_read|]. intros s. apply k_seq.
  { destruct (sc_bodies s); [apply H'; intro; split; reflexivity|apply k_ret]. }
  apply k_bind; [apply k_lift|]. intros ex. apply k_seq; [apply H'; intro; split; reflexivity|]. apply k_bind; [apply k_read|]. intros s1. apply k_bind; [apply k_lift|].
  intros ps. apply k_seq; [apply H'; intro; split; reflexivity|]. apply k_seq; [destruct (sc_n s =? -1)%Z; [apply H'; intro; split; reflexivity|apply k_ret]|].
  apply k_bind; [apply k_read|]. intros s2. apply k_dim.
Qed.
Lemma k_obj m o : (forall a i, V (set_obj_id a i) = V a) -> keeps V (update_model_obj m o).
Proof. intros H. unfold update_model_obj. apply k_seq; [apply k_seta; intros; apply H|]. destruct (_ =? -1)%Z; [apply k_raise|apply k_model]. Qed.
Lemma k_joint_task m j : (forall a q, V (set_jt_qidx a q) = V a) -> (forall t, keeps V (update_target_q t)) -> keeps V (update_model_joint_task m j).
Proof.
  intros H Hq. unfold update_model_joint_task. apply k_bind; [apply k_joint_masks|]. intros qv. apply k_seq; [apply k_seta; intros; apply H|]. apply k_seq; [apply k_dim|].
  destruct (jt_target j); [|apply Hq]. apply k_bind; [apply k_lift|]. intros [|]; [apply k_raise|apply k_ret].
Qed.
Lemma k_joint_barrier m j : (forall a q, V (set_jb_qidx a q) = V a) -> (forall t, keeps V (update_q_min t)) -> (forall t, keeps V (update_q_max t)) -> keeps V (update_model_joint_barrier m j).
Proof.
  intros H H1 H2. unfold update_model_joint_barrier. apply k_bind; [apply k_joint_masks|]. intros qv. apply k_seq; [apply k_seta; intros; apply H|]. apply k_seq; [apply k_dim|].
  apply k_seq; [destruct (jb_qmin j)|destruct (jb_qmax j)]; try apply k_ret; auto.
Qed.
Lemma k_update_model m : (forall a i, V (set_obj_id a i) = V a) -> (forall a q, V (set_jt_qidx a q) = V a) -> (forall a q, V (set_jb_qidx a q) = V a) ->
  (forall f a, V (upd_self (fun k => mkSC (sc_dmin k) (fst (fst (fst (f k)))) (sc_excl_raw k) (snd (fst (fst (f k)))) (snd (fst (f k))) (snd (f k))) a) = V a) ->
  (forall t, keeps V (update_target_q t)) -> (forall t, keeps V (update_q_min t)) -> (forall t, keeps V (update_q_max t)) -> keeps V (update_model m).
Proof.
  intros. unfold update_model. apply k_bind; [apply k_read|]. intros [c l [ | | | | ]|s [ | | | ]|ac h sf [ | ]];
  auto using k_model, k_equality, k_self, k_obj, k_joint_task, k_joint_barrier.
Qed.
End Light.

(** Setters: what each does to the extension. *)
Ltac set_case c := intros c; unfold update_gain, update_cost, update_target_com, update_target_pos, update_target_frame, update_target_q, update_q_min, update_q_max, dim, mbind, read, lift, raise, ret; cbn;
  repeat (match goal with |- context [match ?x with _ => _ end] => match x with context [match _ with _ => _ end] => fail 1 | _ => destruct x eqn:? end end; cbn);
  try reflexivity.

Section Registers.
Context {A : Type} (asks : cop -> option A) (V : comp -> A) (P : cop -> Prop) (Inv : comp -> Prop).
Hypothesis step : forall o c, P o -> Inv c -> V (after o c) = match asks o with Some x => if returned o c then x else V c | None => V c end.
Hypothesis keep : forall o c, P o -> Inv c -> Inv (after o c).
Lemma registers os : Forall P os -> forall c, Inv c -> V (history os c) = last_accepted asks os c (V c).
Proof. intros H. induction H as [|o os Ho _ IH]; intros c I; [reflexivity|]. cbn. unfold history in IH. rewrite IH by auto. now rewrite step. Qed.
End Registers.

Lemma k_pmin {B} (V : attrs -> B) t : light V -> (forall a s p t, a_ext a = XBarrier s (BPos p) -> V (set_a_ext a (XBarrier s (BPos (mkPB (pb_obj p) (pb_lt p) (pb_lt_idxs p) t (pb_max p))))) = V a) ->
  keeps V (update_p_min t).
Proof.
  intros HV H c. unfold update_p_min. unfold mbind at 1. unfold read. cbn. destruct (a_ext (c_at c)) as [|s [p| | |]|] eqn:E; try reflexivity.
  unfold mbind at 1. pose proof (k_mask_idxs V HV c) as K. pose proof (k_mask_idxs a_ext ltac:(intros ? ? _ _ _ ?; assumption) c) as K2.
  destruct (mask_idxs c) as [[idx|e] c']; [|exact K]. cbn in K, K2. rewrite E in K2.
  assert (G : forall t', V (c_at (snd ((if negb (includes_min (pb_lt p)) then ret tt
       else seta (fun a => set_a_ext a (XBarrier s (BPos (mkPB (pb_obj p) (pb_lt p) (pb_lt_idxs p) t' (pb_max p)))))) c'))) = V (c_at c)).
  { intros t'. destruct (includes_min (pb_lt p)); cbn; [|exact K]. rewrite H; assumption. }
  destruct (Nat.eqb (ndim t) 0); unfold mbind, lift, ret, raise; cbn.
  - destruct (scalar_of t); cbn; [apply G|exact K].
  - destruct (last_dim_neq t _) as [[|]|]; cbn; try exact K. apply G.
Qed.
Lemma k_pmax {B} (V : attrs -> B) t : light V -> (forall a s p t, a_ext a = XBarrier s (BPos p) -> V (set_a_ext a (XBarrier s (BPos (mkPB (pb_obj p) (pb_lt p) (pb_lt_idxs p) (pb_min p) t)))) = V a) ->
  keeps V (update_p_max t).
Proof.
  intros HV H c. unfold update_p_max. unfold mbind at 1. unfold read. cbn. destruct (a_ext (c_at c)) as [|s [p| | |]|] eqn:E; try reflexivity.
  unfold mbind at 1. pose proof (k_mask_idxs V HV c) as K. pose proof (k_mask_idxs a_ext ltac:(intros ? ? _ _ _ ?; assumption) c) as K2.
  destruct (mask_idxs c) as [[idx|e] c']; [|exact K]. cbn in K, K2. rewrite E in K2.
  assert (G : forall t', V (c_at (snd ((if negb (includes_max (pb_lt p)) then ret tt
       else seta (fun a => set_a_ext a (XBarrier s (BPos (mkPB (pb_obj p) (pb_lt p) (pb_lt_idxs p) (pb_min p) t'))))) c'))) = V (c_at c)).
  { intros t'. destruct (includes_max (pb_lt p)); cbn; [|exact K]. rewrite H; assumption. }
  destruct (Nat.eqb (ndim t) 0); unfold mbind, lift, ret, raise; cbn.
  - destruct (scalar_of t); cbn; [apply G|exact K].
  - destruct (last_dim_neq t _) as [[|]|]; cbn; try exact K. apply G.
Qed.

(** The views. *)
Definition v_gain (a : attrs) := a_gain a.
Definition v_name (a : attrs) := (a_name a, a_gain_fn a).
Definition v_cost (a : attrs) := cost_of (mkC a true None).
Definition v_target (a : attrs) := target_of (mkC a true None).
Definition v_pmin (a : attrs) := p_min_of (mkC a true None).
Definition v_pmax (a : attrs) := p_max_of (mkC a true None).
Definition v_qmin (a : attrs) := q_min_of (mkC a true None).
Definition v_qmax (a : attrs) := q_max_of (mkC a true None).
Definition v_class (a : attrs) := class_of (mkC a true None).
Definition v_extra (a : attrs) := extra_of (mkC a true None).
Ltac views := unfold v_gain, v_name, v_cost, v_target, v_pmin, v_pmax, v_qmin, v_qmax, v_class, v_extra, cost_of, target_of, p_min_of, p_max_of, q_min_of, q_max_of, class_of, extra_of; cbn.
Lemma l_gain : light v_gain. Proof. intros ? ? ? ? ? ?. assumption. Qed.
Lemma l_name : light v_name. Proof. intros ? ? E ? E2 ?. unfold v_name. now rewrite E, E2. Qed.
Lemma l_cost : light v_cost. Proof. intros ? ? ? ? ? E. views. now rewrite E. Qed.
Lemma l_target : light v_target. Proof. intros ? ? ? ? ? E. views. now rewrite E. Qed.
Lemma l_pmin : light v_pmin. Proof. intros ? ? ? ? ? E. views. now rewrite E. Qed.
Lemma l_pmax : light v_pmax. Proof. intros ? ? ? ? ? E. views. now rewrite E. Qed.
Lemma l_qmin : light v_qmin. Proof. intros ? ? ? ? ? E. views. now rewrite E. Qed.
Lemma l_qmax : light v_qmax. Proof. intros ? ? ? ? ? E. views. now rewrite E. Qed.
Lemma l_class : light v_class. Proof. intros ? ? ? ? ? E. views. now rewrite E. Qed.
Lemma l_extra : light v_extra. Proof. intros ? ? ? ? ? E. views. now rewrite E. Qed.

Ltac sets := let c := fresh "c" in set_case c; views; repeat match goal with H : a_ext _ = _ |- _ => rewrite H end; try reflexivity; try congruence.
Ltac upds := intros; match goal with a : attrs |- _ => destruct a as [? ? ? ? ? ? ? [? ? [ | | | | ]|? [ | | | ]|? ? ? ?]] end; reflexivity.
Ltac pset := intros ? ? ? ? E; views; try rewrite E; reflexivity.
Ltac known := first [apply l_gain|apply l_name|apply l_cost|apply l_target|apply l_pmin|apply l_pmax|apply l_qmin|apply l_qmax|apply l_class|apply l_extra].
Ltac models := intros; apply k_update_model; [known|upds|upds|upds|upds|intros; sets|intros; sets|intros; sets].

(** One step of each view. *)
Ltac reads := apply k_ignore; first [apply k_read_mask|apply k_mask_idxs|apply k_jax]; known.
Ltac own := let c := fresh "c" in intros c; unfold update_gain, update_cost, update_target_com, update_target_pos, update_target_frame, update_target_q, update_q_min, update_q_max, dim, mbind, read, lift, raise, ret, returned; cbn [run_cop];
  unfold update_gain, update_cost, update_target_com, update_target_pos, update_target_frame, update_target_q, update_q_min, update_q_max, dim, mbind, read, lift, raise, ret; cbn;
  repeat (match goal with |- context [match ?x with _ => _ end] => match x with context [match _ with _ => _ end] => fail 1 | _ => destruct x eqn:? end end; cbn);
  try reflexivity; views; repeat match goal with H : a_ext _ = _ |- _ => rewrite H end; try reflexivity; try congruence.
Ltac pmin := apply k_pmin; [known|pset].
Ltac pmax := apply k_pmax; [known|pset].
Ltac view_step c := match goal with |- context [run_cop ?o] => destruct o end; cbn [run_cop]; first [pmin|pmax|reads|(revert c; models)|(revert c; sets; fail)|idtac].

Lemma gain_step o c : api_op o -> gain_of (after o c) = match asks_gain o with Some x => if returned o c then x else gain_of c | None => gain_of c end.
Proof.
  intros Ha. unfold after. change (gain_of ?x) with (v_gain (c_at x)). destruct o; cbn [run_cop asks_gain]; try destruct Ha; try pmin; try pmax; try reads; revert c; try (models; fail); own.
Qed.
Lemma cost_step o c : api_op o -> cost_of (after o c) = match asks_cost o with Some x => if returned o c then x else cost_of c | None => cost_of c end.
Proof.
  intros Ha. unfold after. change (cost_of ?x) with (v_cost (c_at x)). destruct o; cbn [run_cop asks_cost]; try destruct Ha; try pmin; try pmax; try reads; revert c; try (models; fail); own.
Qed.
Lemma keep_step {B} (V : attrs -> B) o c : light V -> api_op o ->
  (forall a i, V (set_obj_id a i) = V a) -> (forall a q, V (set_jt_qidx a q) = V a) -> (forall a q, V (set_jb_qidx a q) = V a) ->
  (forall f a, V (upd_self (fun k => mkSC (sc_dmin k) (fst (fst (fst (f k)))) (sc_excl_raw k) (snd (fst (fst (f k)))) (snd (fst (f k))) (snd (f k))) a) = V a) ->
  (forall t, keeps V (update_gain t)) -> (forall t, keeps V (update_cost t)) -> (forall t, keeps V (update_target_com t)) -> (forall t, keeps V (update_target_pos t)) ->
  (forall t, keeps V (update_target_frame t)) -> (forall t, keeps V (update_target_q t)) -> (forall t, keeps V (update_q_min t)) -> (forall t, keeps V (update_q_max t)) ->
  (forall t, keeps V (update_p_min t)) -> (forall t, keeps V (update_p_max t)) -> V (c_at (after o c)) = V (c_at c).
Proof.
  intros HV Ha K1 K2 K3 K4 H3 H4 H5 H6 H7 H8 H9 H10 H11 H12. unfold after. destruct o; cbn [run_cop]; try destruct Ha;
  first [apply H3|apply H4|apply H5|apply H6|apply H7|apply H8|apply H9|apply H10|apply H11|apply H12|(apply k_ignore; auto using k_read_mask, k_mask_idxs, k_jax)|now apply k_update_model].
Qed.
Ltac kept := apply keep_step; [known|assumption|upds|upds|upds|upds|intros; sets|intros; sets|intros; sets|intros; sets|intros; sets|intros; sets|intros; sets|intros; sets|intros; pmin|intros; pmax].
Lemma name_step o c : api_op o -> v_name (c_at (after o c)) = v_name (c_at c). Proof. intros. kept. Qed.
Lemma class_step o c : api_op o -> v_class (c_at (after o c)) = v_class (c_at c). Proof. intros. kept. Qed.
Lemma extra_step o c : api_op o -> v_extra (c_at (after o c)) = v_extra (c_at c). Proof. intros. kept. Qed.

(** Binding does not touch limits of a position barrier. *)
Lemma pmin_keep o c : api_op o -> (forall t, o <> OpPMin t) -> p_min_of (after o c) = p_min_of c.
Proof.
  intros Ha Hn. unfold after. change (p_min_of ?x) with (v_pmin (c_at x)). destruct o; cbn [run_cop]; try destruct Ha; try (exfalso; eapply Hn; reflexivity);
  clear Hn; try pmax; try reads; revert c; try (models; fail); sets.
Qed.
Lemma pmax_keep o c : api_op o -> (forall t, o <> OpPMax t) -> p_max_of (after o c) = p_max_of c.
Proof.
  intros Ha Hn. unfold after. change (p_max_of ?x) with (v_pmax (c_at x)). destruct o; cbn [run_cop]; try destruct Ha; try (exfalso; eapply Hn; reflexivity);
  clear Hn; try pmin; try reads; revert c; try (models; fail); sets.
Qed.
Lemma read_idxs c k : a_mask (c_at c) = Some k -> mask_idxs c = (Ok (a_mask_idxs (c_at c)), c).
Proof. intros Hm. unfold mask_idxs, mseq, mbind, read. unfold force_mask, mbind, read, ret. rewrite Hm. reflexivity. Qed.
Definition pos_barrier (lt : limit_type) (n : nat) (c : comp) : Prop :=
  (exists nm ty, class_of c = KPosBarrier nm ty lt) /\ (exists k, a_mask (c_at c) = Some k) /\ List.length (a_mask_idxs (c_at c)) = n.
Lemma spread_scalar n t x : ndim t = 0 -> scalar_of t = Ok x -> spread n t = tvec (vconst n x).
Proof. unfold ndim, scalar_of, spread. destruct (t_shape t); [|discriminate]. destruct (t_data t) as [|y [|]]; try discriminate. intros _ E. now injection E as ->. Qed.
Lemma spread_array n t : ndim t <> 0 -> spread n t = t.
Proof. unfold ndim, spread. now destruct (t_shape t). Qed.
Lemma pmin_step lt n o c : api_op o -> pos_barrier lt n c ->
  p_min_of (after o c) = match asks_p_min lt n o with Some x => if returned o c then x else p_min_of c | None => p_min_of c end.
Proof.
  intros Ha ((nm & ty & Hk) & (k & Hm) & Hn). destruct o; try (cbn [asks_p_min]; apply pmin_keep; [assumption|congruence]).
  unfold after, returned. cbn [run_cop]. unfold class_of in Hk. destruct (a_ext (c_at c)) as [? ? []|s []|? ? ? []] eqn:E; try discriminate. injection Hk as _ _ Hl.
  unfold update_p_min, p_min_of, mbind, lift, raise, ret, read. cbn beta iota. rewrite E. rewrite (read_idxs c k Hm). rewrite Hn.
  destruct (Nat.eqb_spec (ndim t) 0) as [N|N]; cbn.
  - destruct (scalar_of t) as [x|] eqn:Es; cbn; [|destruct lt; rewrite ?E; reflexivity]. rewrite (spread_scalar n t x N Es). rewrite Hl. destruct lt; cbn; rewrite ?E; reflexivity.
  - rewrite (spread_array n t N). destruct (last_dim_neq t (Z.of_nat n)) as [[|]|]; cbn; try (destruct lt; rewrite ?E; reflexivity). rewrite Hl. destruct lt; cbn; rewrite ?E; reflexivity.
Qed.
Lemma pmax_step lt n o c : api_op o -> pos_barrier lt n c ->
  p_max_of (after o c) = match asks_p_max lt n o with Some x => if returned o c then x else p_max_of c | None => p_max_of c end.
Proof.
  intros Ha ((nm & ty & Hk) & (k & Hm) & Hn). destruct o; try (cbn [asks_p_max]; apply pmax_keep; [assumption|congruence]).
  unfold after, returned. cbn [run_cop]. unfold class_of in Hk. destruct (a_ext (c_at c)) as [? ? []|s []|? ? ? []] eqn:E; try discriminate. injection Hk as _ _ Hl.
  unfold update_p_max, p_max_of, mbind, lift, raise, ret, read. cbn beta iota. rewrite E. rewrite (read_idxs c k Hm). rewrite Hn.
  destruct (Nat.eqb_spec (ndim t) 0) as [N|N]; cbn.
  - destruct (scalar_of t) as [x|] eqn:Es; cbn; [|destruct lt; rewrite ?E; reflexivity]. rewrite (spread_scalar n t x N Es). rewrite Hl. destruct lt; cbn; rewrite ?E; reflexivity.
  - rewrite (spread_array n t N). destruct (last_dim_neq t (Z.of_nat n)) as [[|]|]; cbn; try (destruct lt; rewrite ?E; reflexivity). rewrite Hl. destruct lt; cbn; rewrite ?E; reflexivity.
Qed.

(** Targets and joint limits: binding supplies a default only if there is none. *)
Lemma target_keep o c : api_op o -> target_of c <> None -> asks_target o = None -> no_array_frame o -> target_of (after o c) = target_of c.
Proof.
  intros Ha Hs Hn Hf. unfold after. change (target_of ?x) with (v_target (c_at x)). destruct o; cbn [run_cop]; try destruct Ha; try discriminate Hn; try (destruct f; [discriminate Hn|destruct Hf]);
  clear Hn Hf; try pmin; try pmax; try reads; try (clear Hs; revert c; sets; fail).
  unfold update_model. unfold mbind at 1. unfold read at 1. unfold target_of in Hs.
  destruct (a_ext (c_at c)) as [? ? [ | | |j| ]|? [ |j| | ]|? ? ? []] eqn:E.
  - apply k_model. known.
  - apply k_obj; [known|upds].
  - apply k_obj; [known|upds].
  - unfold update_model_joint_task. destruct (jt_target j) as [tg|]; [|now exfalso]. clear Hs E. revert c. apply k_bind; [apply k_joint_masks; known|]. intros qv. apply k_seq; [apply k_seta; upds|].
    apply k_seq; [apply k_dim; known|]. apply k_bind; [apply k_lift|]. intros [|]; [apply k_raise|apply k_ret].
  - apply k_model. known.
  - now exfalso.
  - now exfalso.
  - now exfalso.
  - now exfalso.
  - now exfalso.
  - now exfalso.
Qed.
Lemma target_own o c x : api_op o -> asks_target o = Some x -> target_of (after o c) = if returned o c then x else target_of c.
Proof.
  intros Ha Hx. unfold after. destruct o; try discriminate Hx; try (destruct f; [|discriminate Hx]); injection Hx as <-; revert c; change (target_of ?y) with (v_target (c_at y)); cbn [run_cop]; own.
Qed.
Lemma target_step o c : api_op o /\ no_array_frame o -> target_of c <> None -> target_of (after o c) = match asks_target o with Some x => if returned o c then x else target_of c | None => target_of c end.
Proof. intros [Ha Hf] Hs. destruct (asks_target o) as [x|] eqn:E; [now apply target_own|now apply target_keep]. Qed.
Lemma target_some o x : asks_target o = Some x -> x <> None.
Proof. destruct o; try discriminate; try (destruct f; [|discriminate]); intros E; injection E as <-; discriminate. Qed.
Lemma target_inv o c : api_op o /\ no_array_frame o -> target_of c <> None -> target_of (after o c) <> None.
Proof. intros Ho Hs. rewrite target_step by assumption. destruct (asks_target o) as [x|] eqn:E; [|exact Hs]. apply target_some in E. now destruct (returned o c). Qed.

Lemma qlims_keep m c : q_min_of c <> None -> q_max_of c <> None -> q_min_of (after (OpModel m) c) = q_min_of c /\ q_max_of (after (OpModel m) c) = q_max_of c.
Proof.
  intros H1 H2. unfold after. cbn [run_cop]. unfold update_model. unfold mbind at 1 2. unfold read at 1 2. unfold q_min_of in H1; unfold q_max_of in H2.
  change (q_min_of ?x) with (v_qmin (c_at x)). change (q_max_of ?x) with (v_qmax (c_at x)).
  destruct (a_ext (c_at c)) as [? ? [ | | |j| ]|? [ |j| | ]|? ? ? []] eqn:E; try now exfalso.
  unfold update_model_joint_barrier. destruct (jb_qmin j) as [lo|]; [|now exfalso]. destruct (jb_qmax j) as [hi|]; [|now exfalso]. clear H1 H2 E.
  split; revert c; (apply k_bind; [apply k_joint_masks; known|]; intros qv; apply k_seq; [apply k_seta; upds|]; apply k_seq; [apply k_dim; known|]; apply k_seq; apply k_ret).
Qed.
Definition has_limits (c : comp) := q_min_of c <> None /\ q_max_of c <> None.
Lemma qmin_step o c : api_op o -> has_limits c -> q_min_of (after o c) = match asks_q_min o with Some x => if returned o c then x else q_min_of c | None => q_min_of c end.
Proof.
  intros Ha [H1 H2]. destruct o; try (now apply qlims_keep); unfold after; change (q_min_of ?x) with (v_qmin (c_at x)); cbn [run_cop asks_q_min]; try destruct Ha; clear H1 H2; try pmin; try pmax; try reads; revert c; own.
Qed.
Lemma qmax_step o c : api_op o -> has_limits c -> q_max_of (after o c) = match asks_q_max o with Some x => if returned o c then x else q_max_of c | None => q_max_of c end.
Proof.
  intros Ha [H1 H2]. destruct o; try (now apply qlims_keep); unfold after; change (q_max_of ?x) with (v_qmax (c_at x)); cbn [run_cop asks_q_max]; try destruct Ha; clear H1 H2; try pmin; try pmax; try reads; revert c; own.
Qed.
Lemma qlims_inv o c : api_op o -> has_limits c -> has_limits (after o c).
Proof.
  intros Ha H. pose proof H as [H1 H2]. split; [rewrite qmin_step by assumption|rewrite qmax_step by assumption]; destruct o; cbn; auto; destruct (returned _ c); congruence.
Qed.
