(** Reordering of components by pytrees. *)
From Verif Require Import Base Lin Mjx Typing Component Problem JaxComponents LocalIK GlobalIK SpecQP SpecGlobal QPThms5 JaxTree.
From Coq Require Import Permutation Sorted.
Open Scope nat_scope.

Lemma sinsert_perm {A} (e : string * A) l : Permutation (e :: l) (sinsert e l).
Proof. induction l as [|f r IH]; cbn; [reflexivity|]. destruct (String.leb (fst e) (fst f)); [reflexivity|]. rewrite perm_swap. constructor. exact IH. Qed.
Lemma ssort_perm {A} (l : list (string * A)) : Permutation l (ssort l).
Proof. induction l as [|e r IH]; [constructor|]. cbn. rewrite IH at 1. apply sinsert_perm. Qed.
Lemma leb_total a b : String.leb a b = false -> String.leb b a = true.
Proof. destruct (String.leb_total a b) as [H|H]; congruence. Qed.
Lemma sinsert_sorted {A} (e : string * A) l : LocallySorted (fun x y => String.leb (fst x) (fst y) = true) l -> LocallySorted (fun x y => String.leb (fst x) (fst y) = true) (sinsert e l).
Proof.
  induction 1 as [|a|a b l Hl IH Hab]; cbn.
  - constructor.
  - destruct (String.leb (fst e) (fst a)) eqn:E; constructor; try constructor; try assumption. apply leb_total. exact E.
  - destruct (String.leb (fst e) (fst a)) eqn:E; [constructor; [constructor; assumption|exact E]|]. cbn in IH.
    destruct (String.leb (fst e) (fst b)) eqn:E2; constructor; try assumption. apply leb_total. exact E.
Qed.
Lemma ssort_sorted {A} (l : list (string * A)) : LocallySorted (fun x y => String.leb (fst x) (fst y) = true) (ssort l).
Proof. induction l as [|e r IH]; [constructor|]. cbn. apply sinsert_sorted. exact IH. Qed.
Lemma jit_entries pd : Permutation (jd_comps pd) (jd_comps (under_jit pd)) /\ jd_model (under_jit pd) = jd_model pd /\ jd_vmin (under_jit pd) = jd_vmin pd /\ jd_vmax (under_jit pd) = jd_vmax pd /\
  LocallySorted (fun x y => String.leb (fst x) (fst y) = true) (jd_comps (under_jit pd)).
Proof. split; [apply ssort_perm|]. split; [reflexivity|]. split; [reflexivity|]. split; [reflexivity|]. apply ssort_sorted. Qed.

(** ** the global loss *)
Lemma add_loss_shift L d l j : add_loss L d l j = do c <- add_loss L d 0 j; Ok (l + c)%R.
Proof.
  unfold add_loss. destruct (j_ext j); [| |reflexivity].
  - destruct (call L j d) as [e|]; cbn [bind]; [|reflexivity]. destruct (bc2 Rmult (j_gain j) e) as [ge|]; cbn [bind]; [|reflexivity]. destruct (Nat.eqb _ _); cbn [bind]; [f_equal; ring|reflexivity].
  - destruct (call L j d) as [e|]; cbn [bind]; [|reflexivity]. destruct (log_barrier _ _) as [b|]; cbn [bind]; [f_equal; ring|reflexivity].
Qed.
Lemma loss_perm L d js js' : Permutation js js' -> forall l x, loss_of L d l js = Ok x -> loss_of L d l js' = Ok x.
Proof.
  induction 1 as [|[n j] js js' _ IH|[n j] [m k] js|js js' js'' _ IH1 _ IH2]; intros l x H.
  - exact H.
  - cbn [loss_of] in *. destruct (add_loss L d l j) as [y|]; cbn [bind] in *; [|discriminate]. apply IH. exact H.
  - cbn [loss_of] in *. rewrite (add_loss_shift L d l j). rewrite (add_loss_shift L d l k) in H.
    destruct (add_loss L d 0 k) as [a|] eqn:Ek; cbn [bind] in H; [|discriminate]. rewrite (add_loss_shift L d (l + a) j) in H.
    destruct (add_loss L d 0 j) as [b|] eqn:Ej; cbn [bind] in *; [|discriminate]. rewrite (add_loss_shift L d (l + b) k), Ek. cbn [bind].
    replace (l + b + a)%R with (l + a + b)%R by ring. exact H.
  - apply IH2, IH1, H.
Qed.
Lemma loss_order L q pd pd' : jd_model pd' = jd_model pd -> Permutation (comps_of pd) (comps_of pd') -> forall x, loss_fn L q pd = Ok x <-> loss_fn L q pd' = Ok x.
Proof.
  intros Hm Hp x. unfold loss_fn, comps_of in *. rewrite Hm. set (d := update L (jd_model pd) q).
  assert (Hn : forall js l, loss_of L d l js = loss_of L d l (map (fun j => (EmptyString, j)) (map snd js))).
  { induction js as [|[n j] r IH]; intros l; [reflexivity|]. cbn. destruct (add_loss L d l j); cbn; [apply IH|reflexivity]. }
  rewrite (Hn (jd_comps pd)), (Hn (jd_comps pd')). split; apply loss_perm; apply Permutation_map; [exact Hp|symmetry; exact Hp].
Qed.
Lemma jit_comps pd : Permutation (comps_of pd) (comps_of (under_jit pd)).
Proof. unfold comps_of. apply Permutation_map. apply ssort_perm. Qed.
Lemma jit_loss L q pd x : loss_fn L q pd = Ok x <-> loss_fn L q (under_jit pd) = Ok x.
Proof. apply loss_order; [reflexivity|apply jit_comps]. Qed.
Lemma jit_qp L sm pd d Q : m_nv sm = m_nv (jd_model pd) ->
  List.length (jd_vmin pd) = m_nv (jd_model pd) -> List.length (jd_vmax pd) = m_nv (jd_model pd) ->
  Forall (well_shaped L (m_nv (jd_model pd)) d) (comps_of pd) ->
  assemble L sm pd d = Ok Q -> exists Q', assemble L sm (under_jit pd) d = Ok Q' /\ qp_P Q' = qp_P Q /\ qp_c Q' = qp_c Q /\
    Permutation (row_pairs (qp_G Q) (qp_h Q)) (row_pairs (qp_G Q') (qp_h Q')) /\ Permutation (eq_rows (qp_eq Q)) (eq_rows (qp_eq Q')) /\
    forall v, optimal (m_nv (jd_model pd)) Q v <-> optimal (m_nv (jd_model pd)) Q' v.
Proof. intros H1 H2 H3 H4 H5. exact (perm_optimal L sm pd (under_jit pd) d Q H1 eq_refl eq_refl eq_refl H2 H3 (jit_comps pd) H4 H5). Qed.
