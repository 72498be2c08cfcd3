(** The modified flag, the compiled component, and what can be read when. *)
From Verif Require Import Base Lin LinFacts Mjx Typing Component SpecComponent ComponentFacts ComponentFacts2 SpecHistory SpecSettings SettingFacts SettingThms Read SpecRead ReadFacts ReadFacts2.
Open Scope nat_scope.
#[local] Arguments Nat.ltb : simpl never.
#[local] Arguments Nat.eqb : simpl never.
#[local] Arguments build_component : simpl never.
#[local] Arguments zrange : simpl never.
#[local] Arguments Z.eqb : simpl never.
#[local] Arguments Z.le : simpl never.
#[local] Arguments Z.compare : simpl never.
#[local] Arguments force_mask : simpl never.

(** ** Compiled values are the values shown *)
Lemma uses_Inv us : forall c, Inv c -> Inv (uses us c).
Proof. induction us as [|[o|x] us IH]; intros c HI; cbn; auto; apply IH; [now apply do_Inv|now apply look_Inv]. Qed.
Lemma shows_carried c j : Inv c -> shows c AJax = Ok (VJax j) -> carries c j.
Proof.
  intros HI H. unfold shows in H. cbn [get] in H. rewrite via_fst, (jax_value c HI) in H.
  destruct (jax_pure (c_at c)) as [j'|] eqn:E; [|discriminate]. cbn in H. injection H as ->.
  apply jax_pure_published in E. destruct E as (P1 & P2 & P3 & P4 & P5 & P6 & P7).
  unfold carries, shows. cbn [get]. unfold read, vmap_res. cbn [fst]. rewrite P3, P4, P5. rewrite via_fst. unfold vmap_res. rewrite P6.
  unfold dim. apply Z.eqb_neq in P1. rewrite P1, P2. cbn [bind]. repeat (split; [reflexivity|]).
  inversion P7 as [? ? ? ? X Y|? ? ? ? ? X Y|? ? ? ? ? X Y|? ? ? ? ? ? X Y|? ? ? ? X Y|? ? ? ? ? ? X Y|? ? ? ? ? X|? ? ? ? ? ? ? X Y|? ? X|? ? ? ? X Y|? ? ? ? ? X Y]; unfold get_obj, get_pbar, get_jbar, self_of; rewrite X; cbn [bind opt pb_obj pb_lt pb_lt_idxs pb_min pb_max jb_qmin jb_qmax jb_qidx jt_target jt_qidx sc_dmin sc_pairs sc_n]; rewrite ?Y; auto 10.
  - apply Z.eqb_neq in Y. rewrite Y. auto 10.
  - split; [reflexivity|]. split; [|auto]. unfold d_min_vec, dim, zsize. rewrite P1. cbn [bind].
    replace (a_dim (c_at c) <? 0)%Z with false by (symmetry; apply Z.ltb_ge; exact Y). reflexivity.
Qed.

(** ** What a class does not define *)
Lemma uses_class us : forall c, Inv c -> Forall public us -> class_of (uses us c) = class_of c.
Proof.
  induction us as [|u us IH]; intros c HI HF; [reflexivity|]. apply Forall_cons_iff in HF. destruct HF as [Hu HF].
  cbn [uses fold_left]. destruct u as [o|x].
  - change (fold_left use_once us (use_once c (Do o))) with (uses us (use_once c (Do o))). rewrite IH; [|now apply do_Inv|exact HF].
    assert (Ha : api_op o) by (now destruct o). exact (class_step o c Ha).
  - change (fold_left use_once us (use_once c (Look x))) with (uses us (use_once c (Look x))). rewrite IH; [|now apply look_Inv|exact HF].
    unfold class_of. destruct (look_state x c HI) as [->|F]; [reflexivity|]. destruct (forced_other _ _ F) as (_ & _ & _ & _ & _ & ->). reflexivity.
Qed.
Lemma not_defined c x : defined (class_of c) x = false -> shows c x = Err AttributeError.
Proof.
  unfold shows, class_of, defined. intros H.
  destruct x; cbn [get]; try (cbn in H; discriminate H); unfold read, get_obj, get_pbar, get_jbar, self_of; cbn [fst];
  destruct (a_ext (c_at c)) as [? ? []|? []|? ? ? []]; cbn in H; try discriminate H; reflexivity.
Qed.
Lemma always_defined c x : defined (class_of c) x = true -> unconditional x = true -> exists v, shows c x = Ok v.
Proof.
  unfold shows, class_of, defined. intros H H2.
  destruct x; cbn [get]; try (cbn in H2; discriminate H2); unfold read, get_obj, get_pbar, get_jbar, self_of; cbn [fst]; eauto;
  destruct (a_ext (c_at c)) as [? ? []|? []|? ? ? []]; cbn in H; try discriminate H; cbn; eauto.
Qed.
