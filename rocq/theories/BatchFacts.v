(** Lemmas on batched settings: a world in which some settings are replaced by one
    of their rows. *)
From Verif Require Import Base Lin LinFacts Mjx Typing Component Problem SpecComponent SpecProblem SpecQP JaxTree SpecJaxTree.
From Verif Require Import ComponentFacts ComponentFacts2 ProblemFacts ShareFacts JaxTreeFacts JaxTreeThms SpecBatch.
Open Scope nat_scope.
#[local] Arguments update_model : simpl never.
#[local] Arguments jax_component : simpl never.
#[local] Arguments mask_idxs : simpl never.
#[local] Arguments row : simpl never.
#[local] Arguments Nat.eqb : simpl never.
#[local] Arguments String.eqb : simpl never.

(** ** Rows *)
Lemma row_ndim i t n s : t_shape t = n :: s -> s <> [] -> Nat.eqb (ndim (row i t)) 0 = false /\ Nat.eqb (ndim t) 0 = false.
Proof. intros H Hs. unfold row, ndim. rewrite H. cbn. destruct s; [congruence|]. split; reflexivity. Qed.
Lemma row_last i t n s : t_shape t = n :: s -> s <> [] -> last_dim (row i t) = last_dim t.
Proof.
  intros H Hs. unfold row, last_dim. rewrite H. cbn [t_shape tl rev]. destruct (rev s) as [|x l] eqn:E.
  - exfalso. apply Hs. rewrite <- (rev_involutive s), E. reflexivity.
  - reflexivity.
Qed.
Lemma row_last_neq i t n s d : t_shape t = n :: s -> s <> [] -> last_dim_neq (row i t) d = last_dim_neq t d.
Proof. intros H Hs. unfold last_dim_neq. now rewrite (row_last _ _ _ _ H Hs). Qed.
Lemma convert_firstn k : forall d, convert_frames (firstn (7 * k) d) = firstn (7 * k) (convert_frames d).
Proof.
  induction k as [|k IH]; intros d; [reflexivity|]. replace (7 * S k) with (7 + 7 * k) by lia.
  destruct d as [|x [|y [|z [|w [|a [|b [|c r]]]]]]]; try reflexivity.
  cbn [plus firstn convert_frames]. now rewrite IH.
Qed.
Lemma convert_skipn k : forall d, convert_frames (skipn (7 * k) d) = skipn (7 * k) (convert_frames d).
Proof.
  induction k as [|k IH]; intros d; [reflexivity|]. replace (7 * S k) with (7 + 7 * k) by lia.
  destruct d as [|x [|y [|z [|w [|a [|b [|c r]]]]]]]; try (cbn; now rewrite ?skipn_nil).
Qed.
Lemma prod_last s l x : rev s = x :: l -> exists k, fold_right Nat.mul 1 s = x * k.
Proof.
  intros H. assert (E : s = rev l ++ [x]) by (rewrite <- (rev_involutive s), H; reflexivity). subst s. clear H.
  generalize (rev l) as r. intros r. exists (fold_right Nat.mul 1 r). induction r as [|y r IH]; cbn; [lia|]. rewrite IH. lia.
Qed.
Lemma convert_row i t n s : t_shape t = n :: s -> s <> [] -> last_dim_neq t 7 = Ok false ->
  mkT (t_shape (row i t)) (convert_frames (t_data (row i t))) = row i (mkT (t_shape t) (convert_frames (t_data t))).
Proof.
  intros H Hs Hl. unfold row. rewrite H. cbn [t_shape t_data tl].
  unfold last_dim_neq, last_dim in Hl. rewrite H in Hl. cbn [rev] in Hl. destruct (rev s) as [|x l] eqn:E.
  { exfalso. apply Hs. rewrite <- (rev_involutive s), E. reflexivity. }
  cbn in Hl. assert (x = 7). { destruct (Z.of_nat x =? 7)%Z eqn:Ex; [apply Z.eqb_eq in Ex; lia|discriminate]. } subst x.
  destruct (prod_last _ _ _ E) as [k ->]. f_equal. rewrite convert_firstn. f_equal.
  replace (i * (7 * k)) with (7 * (i * k)) by lia. apply convert_skipn.
Qed.

(** ** Attributes with some settings replaced by a row *)
Definition pick (i : nat) (b : bool) (t : tensor) : tensor := if b then row i t else t.
Definition lane_ext (i : nat) (F : string -> bool) (e : ext) : ext :=
  match e with
  | XTask c l (TCom t) => XTask c l (TCom (pick i (F "target_com"%string) t))
  | XTask c l (TPos o t) => XTask c l (TPos o (pick i (F "target_pos"%string) t))
  | XTask c l (TFrame o t) => XTask c l (TFrame o (pick i (F "target_frame"%string) t))
  | XTask c l (TJoint j) => XTask c l (TJoint (mkJT (jt_final j) (option_map (pick i (F "target_q"%string)) (jt_target j)) (jt_qidx j)))
  | XBarrier s (BPos p) => XBarrier s (BPos (mkPB (pb_obj p) (pb_lt p) (pb_lt_idxs p) (pick i (F "p_min"%string) (pb_min p)) (pick i (F "p_max"%string) (pb_max p))))
  | XBarrier s (BJoint j) => XBarrier s (BJoint (mkJB (jb_final j) (option_map (pick i (F "q_min"%string)) (jb_qmin j)) (option_map (pick i (F "q_max"%string)) (jb_qmax j)) (jb_qidx j)))
  | _ => e
  end.
Definition lane_attrs (i : nat) (F : string -> bool) (a : attrs) : attrs := set_a_ext a (lane_ext i F (a_ext a)).
Definition lane_jext (i : nat) (F : string -> bool) (e : jext) : jext :=
  match e with
  | JTask W l (JTCom t) => JTask W l (JTCom (pick i (F "target_com"%string) t))
  | JTask W l (JTPos o y t) => JTask W l (JTPos o y (pick i (F "target_pos"%string) t))
  | JTask W l (JTFrame o y t) => JTask W l (JTFrame o y (pick i (F "target_frame"%string) t))
  | JTask W l (JTJoint t q) => JTask W l (JTJoint (pick i (F "target_q"%string) t) q)
  | JBarrier s (JBPos o y lo hi li) => JBarrier s (JBPos o y (pick i (F "p_min"%string) lo) (pick i (F "p_max"%string) hi) li)
  | JBarrier s (JBJoint lo hi q) => JBarrier s (JBJoint (pick i (F "q_min"%string) lo) (pick i (F "q_max"%string) hi) q)
  | _ => e
  end.
Definition lane_j (i : nat) (F : string -> bool) (j : jaxc) : jaxc :=
  mkJ (j_dim j) (j_model j) (j_gain j) (j_gain_fn j) (j_mask_idxs j) (lane_jext i F (j_ext j)).

Lemma option_pick_false i (o : option tensor) : option_map (pick i false) o = o.
Proof. destruct o; reflexivity. Qed.
Lemma lane_none i a : lane_attrs i (fun _ => false) a = a.
Proof.
  destruct a as [n m g gf d mk mi e]. unfold lane_attrs, set_a_ext. cbn. f_equal.
  destruct e as [c l [t|o t|o t|[]|f]|s [[]|[]|sc|f]|]; cbn; rewrite ?option_pick_false; reflexivity.
Qed.
Lemma lane_attrs_ext i F G a : (forall f, F f = G f) -> lane_attrs i F a = lane_attrs i G a.
Proof.
  intros H. unfold lane_attrs. f_equal. destruct (a_ext a) as [c l [t|o t|o t|[]|f]|s [[]|[]|sc|f]|]; cbn; rewrite ?H; reflexivity.
Qed.

Lemma lane_forced i F a : forced (lane_attrs i F a) = do a' <- forced a; Ok (lane_attrs i F a').
Proof.
  unfold forced. cbn [a_mask lane_attrs set_a_ext a_dim]. destruct (a_mask a) eqn:E; [reflexivity|].
  destruct (a_dim a =? -1)%Z; [reflexivity|].
  unfold get_default_mask, dim. cbn [a_dim lane_attrs set_a_ext]. destruct (a_dim a =? -1)%Z; [reflexivity|]. cbn [bind].
  destruct (zsize (a_dim a)); reflexivity.
Qed.
Lemma lane_build_ext i F a : build_ext (lane_attrs i F a) = do x <- build_ext a; Ok (lane_jext i F x).
Proof.
  unfold build_ext, matrix_cost, soft_constraint_cost, d_min_vec, dim. cbn [a_ext a_dim lane_attrs set_a_ext].
  destruct (a_ext a) as [c l [t|o t|o t|[fm tg q]|f]|s [[o lt li lo hi]|[fm lo hi q]|[]|f]|act h so k]; cbn.
  1-5: destruct (a_dim a =? -1)%Z; [reflexivity|]; destruct (cost_matrix (a_dim a) c); cbn; try reflexivity.
  - destruct tg; cbn; [|reflexivity]. destruct q; reflexivity.
  - destruct (ob_id o =? -1)%Z; reflexivity.
  - destruct lo; cbn; [|reflexivity]. destruct hi; cbn; [|reflexivity]. destruct q; reflexivity.
  - destruct (a_dim a =? -1)%Z; cbn; [reflexivity|]. destruct (zsize (a_dim a)); cbn; [|reflexivity]. destruct sc_pairs; reflexivity.
  - reflexivity.
  - destruct so; destruct (a_dim a =? -1)%Z; cbn; try reflexivity.
    + destruct (cost_matrix (a_dim a) t); cbn; [|reflexivity]. destruct k; reflexivity.
    + destruct (zsize (a_dim a)); cbn; [|reflexivity]. destruct k; reflexivity.
Qed.
Lemma lane_jax i F a : jax_pure (lane_attrs i F a) = do j <- jax_pure a; Ok (lane_j i F j).
Proof.
  unfold jax_pure. cbn [a_model lane_attrs set_a_ext a_dim]. destruct (a_model a) as [m|] eqn:Em; [|reflexivity].
  destruct (a_dim a =? -1)%Z eqn:Ed; [reflexivity|]. unfold build_pure. rewrite lane_forced.
  unfold dim. cbn [a_model lane_attrs set_a_ext a_dim a_gain_fn]. rewrite Ed, Em. cbn [bind opt].
  replace (vector_gain (lane_attrs i F a)) with (vector_gain a) by reflexivity.
  destruct (vector_gain a) as [g|]; cbn [bind]; [|reflexivity]. destruct (forced a) as [a'|]; cbn [bind]; [|reflexivity].
  rewrite lane_build_ext. destruct (build_ext a'); reflexivity.
Qed.

(** ** One batched call against the call with a row *)
Definition also (F : string -> bool) (f : string) : string -> bool := fun g => F g || String.eqb f g.
Lemma also_same F f : also F f f = true.
Proof. unfold also. now rewrite String.eqb_refl, orb_true_r. Qed.
Lemma also_other F f g : f <> g -> also F f g = F g.
Proof. intros H. unfold also. destruct (String.eqb_spec f g) as [E|]; [congruence|]. apply orb_false_r. Qed.

Lemma call_row i N o F c c2 : batched N o -> stored o c -> fst (run_cop o c) = Ok tt -> c_at c2 = lane_attrs i F (c_at c) ->
  fst (run_cop (with_row i o) c2) = Ok tt /\ c_at (snd (run_cop (with_row i o) c2)) = lane_attrs i (also F (field_of o)) (c_at (snd (run_cop o c))).
Proof.
  intros (t & s & Ha & _ & Hs & Hne) Hst Ho Hc. destruct c2 as [a2 m2 k2]. cbn [c_at] in Hc. subst a2.
  destruct o as [| | |t0|t0|[t0|t0]|t0|t0|t0|t0|t0| | | |]; try discriminate; injection Ha as ->;
    cbn [run_cop with_row field_of] in *.
  - unfold update_target_com, mbind, read, lift, raise, seta in *. cbn in Ho |- *.
    destruct (a_ext (c_at c)) as [co l [tt0|ob tt0|ob tt0|[fm tg q]|f]|sd k|? ? ? ?] eqn:E; try discriminate. cbn.
    rewrite (row_last_neq _ _ _ _ _ Hs Hne). cbn in Ho. destruct (last_dim_neq t (a_dim (c_at c))) as [[|]|]; cbn in *; try discriminate.
    split; [reflexivity|]. unfold lane_attrs, set_a_ext; cbn. now rewrite also_same.
  - unfold update_target_pos, mbind, read, lift, raise, seta in *. cbn in Ho |- *.
    destruct (a_ext (c_at c)) as [co l [tt0|ob tt0|ob tt0|[fm tg q]|f]|sd k|? ? ? ?] eqn:E; try discriminate. cbn.
    rewrite (row_last_neq _ _ _ _ _ Hs Hne). cbn in Ho. destruct (last_dim_neq t (a_dim (c_at c))) as [[|]|]; cbn in *; try discriminate.
    split; [reflexivity|]. unfold lane_attrs, set_a_ext; cbn. now rewrite also_same.
  - unfold update_target_frame, mbind, read, lift, raise, seta in *. cbn in Ho |- *.
    destruct (a_ext (c_at c)) as [co l [tt0|ob tt0|ob tt0|[fm tg q]|f]|sd k|? ? ? ?] eqn:E; try discriminate. cbn.
    split; [reflexivity|]. unfold lane_attrs, set_a_ext; cbn. now rewrite also_same.
  - unfold update_target_frame, mbind, read, lift, raise, seta in *. cbn in Ho |- *.
    destruct (a_ext (c_at c)) as [co l [tt0|ob tt0|ob tt0|[fm tg q]|f]|sd k|? ? ? ?] eqn:E; try discriminate. cbn.
    rewrite (row_last_neq _ _ _ _ _ Hs Hne). cbn in Ho. destruct (last_dim_neq t 7) as [[|]|] eqn:El; cbn in *; try discriminate.
    split; [reflexivity|]. unfold lane_attrs, set_a_ext; cbn. rewrite also_same. cbn. now rewrite (convert_row _ _ _ _ Hs Hne El).
  - unfold update_target_q, mbind, read, lift, raise, seta, ret in *. cbn in Ho |- *.
    destruct (a_ext (c_at c)) as [co l [tt0|ob tt0|ob tt0|[fm tg q]|f]|sd k|? ? ? ?] eqn:E; try discriminate. cbn.
    rewrite (row_last_neq _ _ _ _ _ Hs Hne). cbn in Ho. destruct (a_dim (c_at c) =? -1)%Z; cbn in *.
    + split; [reflexivity|]. unfold lane_attrs, set_a_ext; cbn. now rewrite also_same.
    + destruct (last_dim_neq t (a_dim (c_at c))) as [[|]|]; cbn in *; try discriminate.
      split; [reflexivity|]. unfold lane_attrs, set_a_ext; cbn. now rewrite also_same.
  - unfold update_p_min, mbind, read, lift, raise, seta, ret in *. cbn in Ho |- *. unfold stored in Hst.
    destruct (row_ndim i _ _ _ Hs Hne) as [R1 R2]. rewrite R1. rewrite R2 in Ho |- *.
    cbn. destruct (a_ext (c_at c)) as [co l k|sd [[ob lt li lo hi]|k|k|k]|? ? ? ?] eqn:E; try discriminate. cbn in Hst |- *.
    pose proof (mask_idxs_fst c) as A1. pose proof (mask_idxs_snd c) as A2. pose proof (mask_idxs_fst (mkC (lane_attrs i F (c_at c)) m2 k2)) as B1. pose proof (mask_idxs_snd (mkC (lane_attrs i F (c_at c)) m2 k2)) as B2.
    cbn [c_at] in B1, B2. rewrite lane_forced in B1, B2. destruct (mask_idxs c) as [r1 c1']. destruct (mask_idxs (mkC _ _ _)) as [r2 c2']. cbn in A1, A2, B1, B2.
    destruct (forced (c_at c)) as [a'|] eqn:Fo; cbn in A1, A2, B1, B2; subst r1 r2; cbn in Ho |- *; [|discriminate].
    rewrite (row_last_neq _ _ _ _ _ Hs Hne). destruct (last_dim_neq t _) as [[|]|]; cbn in Ho |- *; try discriminate.
    rewrite Hst. cbn. split; [reflexivity|]. rewrite A2, B2. unfold lane_attrs, set_a_ext; cbn.
    rewrite also_same, also_other by discriminate. reflexivity.
  - unfold update_p_max, mbind, read, lift, raise, seta, ret in *. cbn in Ho |- *. unfold stored in Hst.
    destruct (row_ndim i _ _ _ Hs Hne) as [R1 R2]. rewrite R1. rewrite R2 in Ho |- *.
    cbn. destruct (a_ext (c_at c)) as [co l k|sd [[ob lt li lo hi]|k|k|k]|? ? ? ?] eqn:E; try discriminate. cbn in Hst |- *.
    pose proof (mask_idxs_fst c) as A1. pose proof (mask_idxs_snd c) as A2. pose proof (mask_idxs_fst (mkC (lane_attrs i F (c_at c)) m2 k2)) as B1. pose proof (mask_idxs_snd (mkC (lane_attrs i F (c_at c)) m2 k2)) as B2.
    cbn [c_at] in B1, B2. rewrite lane_forced in B1, B2. destruct (mask_idxs c) as [r1 c1']. destruct (mask_idxs (mkC _ _ _)) as [r2 c2']. cbn in A1, A2, B1, B2.
    destruct (forced (c_at c)) as [a'|] eqn:Fo; cbn in A1, A2, B1, B2; subst r1 r2; cbn in Ho |- *; [|discriminate].
    rewrite (row_last_neq _ _ _ _ _ Hs Hne). destruct (last_dim_neq t _) as [[|]|]; cbn in Ho |- *; try discriminate.
    rewrite Hst. cbn. split; [reflexivity|]. rewrite A2, B2. unfold lane_attrs, set_a_ext; cbn.
    rewrite also_same, also_other by discriminate. reflexivity.
  - unfold update_q_min, mbind, read, lift, raise, seta, dim in *. cbn in Ho |- *.
    destruct (a_ext (c_at c)) as [co l k|sd [k|[fm lo hi q]|k|k]|? ? ? ?] eqn:E; try discriminate. cbn.
    rewrite (row_last _ _ _ _ Hs Hne). cbn in Ho. destruct (last_dim t); cbn in *; try discriminate.
    destruct (a_dim (c_at c) =? -1)%Z; cbn in *; try discriminate. destruct (negb _); cbn in *; try discriminate.
    split; [reflexivity|]. unfold lane_attrs, set_a_ext; cbn. rewrite also_same, also_other by discriminate. reflexivity.
  - unfold update_q_max, mbind, read, lift, raise, seta, dim in *. cbn in Ho |- *.
    destruct (a_ext (c_at c)) as [co l k|sd [k|[fm lo hi q]|k|k]|? ? ? ?] eqn:E; try discriminate. cbn.
    rewrite (row_last _ _ _ _ Hs Hne). cbn in Ho. destruct (last_dim t); cbn in *; try discriminate.
    destruct (a_dim (c_at c) =? -1)%Z; cbn in *; try discriminate. destruct (negb _); cbn in *; try discriminate.
    split; [reflexivity|]. unfold lane_attrs, set_a_ext; cbn. rewrite also_same, also_other by discriminate. reflexivity.
Qed.
