(** C08 and C15: proofs of the property statements and concrete cases. *)
From Verif Require Import Base Lin Mjx Typing Component Problem SpecComponent SpecJoint SpecHistory SpecProblem Witness CompThms2 ProbThms JaxTree SpecJaxTree JaxTreeFacts.
Open Scope nat_scope.

(** ** C08 *)
Lemma copies_values kws i h o r h' : nth_error h i = Some o -> (forall kw, In kw kws -> kwargs kw) -> updates kws i h = (Ok r, h') ->
  exists o', nth_error h' r = Some o' /\ class_of o' = class_of o /\ declared o' = declared o /\
    (forall n v, last_write kws n v -> attr o' n = Some v) /\ (forall n, never_written kws n -> attr o' n = attr o n).
Proof.
  intros Hi Hk H. destruct kws as [|kw rest].
  - cbn in H. injection H as <- <-. exists o. split; [exact Hi|]. split; [reflexivity|]. split; [reflexivity|]. split; [|reflexivity].
    intros n v (b & k & a & E & _). destruct b; discriminate.
  - destruct (updates_inv _ _ _ _ _ Hk H ltac:(discriminate)) as (o1 & Ho1 & Hc & Hn). rewrite Hi in Ho1. injection Ho1 as <-.
    destruct (updates_ok _ _ _ _ Hi Hk Hc Hn) as (r2 & h2 & o' & E & Hr & Hc' & Hd & Ha). rewrite E in H. injection H as <- <-.
    exists o'. split; [exact Hr|]. split; [exact Hc'|]. split; [exact Hd|]. split.
    + intros n v Hl. rewrite Ha, (lw_last _ _ _ Hk Hl). reflexivity.
    + intros n Hl. rewrite Ha, (lw_never _ _ Hl). reflexivity.
Qed.

Lemma copies_accepted kws i h o : nth_error h i = Some o -> class_of o <> None -> (forall kw, In kw kws -> kwargs kw) ->
  ((exists r, fst (updates kws i h) = Ok r) <-> (forall kw n, In kw kws -> In n (map fst kw) -> has_field o n)) /\
  ((exists kw n, In kw kws /\ In n (map fst kw) /\ ~ has_field o n) -> fst (updates kws i h) = Err TypeError).
Proof.
  intros Hi Hc Hk. split.
  - split.
    + intros (r & H) kw n Hkw Hn. destruct (updates kws i h) as [x h'] eqn:E. cbn in H. subst x.
      destruct (updates_inv kws i h r h' Hk E) as (o1 & Ho & _ & Hf); [intros ->; exact Hkw|].
      rewrite Hi in Ho. injection Ho as <-. exact (Hf kw n Hkw Hn).
    + intros Hn. destruct (updates_ok kws i h o Hi Hk Hc Hn) as (r & h' & o' & E & _). exists r. rewrite E. reflexivity.
  - revert i h o Hi Hc. induction kws as [|kw rest IH]; intros i h o Hi Hc (k & n & Hkin & Hn & Hno); [contradiction|].
    cbn [updates].
    destruct (existsb (fun m => negb (existsb (String.eqb m) (map fst (declared o)))) (map fst kw)) eqn:Ex.
    + apply existsb_exists in Ex as (m & Hm & Hno'). rewrite (copy_unknown i kw h o m Hi Hc Hm); [reflexivity|].
      intros Hf. apply existsb_name in Hf. rewrite Hf in Hno'. discriminate.
    + assert (Hall : forall m, In m (map fst kw) -> has_field o m).
      { intros m Hm. destruct (existsb (String.eqb m) (map fst (declared o))) eqn:E2; [apply existsb_name; exact E2|].
        exfalso. assert (Ht : existsb (fun m => negb (existsb (String.eqb m) (map fst (declared o)))) (map fst kw) = true)
          by (apply existsb_exists; exists m; split; [exact Hm|rewrite E2; reflexivity]). rewrite Ht in Ex. discriminate. }
      destruct (copy_ok i kw h o Hi (Hk _ (or_introl eq_refl)) Hc Hall) as (o1 & E & Hc1 & Hd1 & _). rewrite E.
      apply (IH (fun k' H => Hk k' (or_intror H)) (List.length h) (h ++ [o1]) o1); [apply nth_last|rewrite Hc1; exact Hc|].
      destruct Hkin as [<-|Hkin]; [exfalso; apply Hno, Hall, Hn|]. exists k, n. split; [exact Hkin|]. split; [exact Hn|].
      unfold has_field. rewrite Hd1. exact Hno.
Qed.

Lemma originals_kept kws i h k o : nth_error h k = Some o -> nth_error (snd (updates kws i h)) k = Some o.
Proof. intros H. destruct (updates_heap kws i h) as [new E]. rewrite E. rewrite nth_error_app1; [exact H|]. apply nth_error_Some. congruence. Qed.
Lemma result_is_new kw i h r h' : copy_and_set i kw h = (Ok r, h') -> r = List.length h /\ nth_error h r = None /\ exists o, h' = h ++ [o].
Proof.
  unfold copy_and_set. destruct (nth_error h i) as [[]|]; try discriminate.
  destruct (construct _ _ _); [|discriminate]. intros H. injection H as <- <-. split; [reflexivity|]. split; [apply nth_error_None; lia|eauto].
Qed.

Lemma last_write_perm_eq kws kws' o o' h i r1 r2 h1 h2 : nth_error h i = Some o -> NoDup (map fst (declared o)) -> class_of o <> None ->
  (forall kw, In kw kws -> kwargs kw) -> (forall kw, In kw kws' -> kwargs kw) ->
  updates kws i h = (Ok r1, h1) -> updates kws' i h = (Ok r2, h2) -> nth_error h1 r1 = Some o' ->
  (forall n v, last_write kws n v -> last_write kws' n v) -> (forall n, never_written kws n -> never_written kws' n) ->
  nth_error h2 r2 = Some o'.
Proof.
  intros Hi Hnd Hc Hk Hk' H1 H2 Ho' Hl Hn.
  destruct (copies_values _ _ _ _ _ _ Hi Hk H1) as (a & Ha & Hca & Hda & Hla & Hna).
  destruct (copies_values _ _ _ _ _ _ Hi Hk' H2) as (b & Hb & Hcb & Hdb & Hlb & Hnb).
  rewrite Ha in Ho'. injection Ho' as <-. rewrite Hb. f_equal. apply object_eq; try congruence.
  intros n.
  assert (Hdec : (exists v, last_write kws n v) \/ never_written kws n).
  { clear. induction kws as [|kw r IH]; [right; intros k []|].
    destruct IH as [(v & b & k & a & -> & Hin & Haf)|Hno].
    - left. exists v, (kw :: b), k, a. split; [reflexivity|]. split; assumption.
    - destruct (in_dec string_dec n (map fst kw)) as [Hin|Hin].
      + left. apply in_map_iff in Hin as ([m v] & Em & Hin). cbn in Em. subst m. exists v, [], kw, r. split; [reflexivity|]. split; [exact Hin|exact Hno].
      + right. intros k [<-|Hk]; [exact Hin|exact (Hno k Hk)]. }
  destruct Hdec as [(v & Hw)|Hno].
  - rewrite (Hla n v Hw), (Hlb n v (Hl n v Hw)). reflexivity.
  - rewrite (Hna n Hno), (Hnb n (Hn n Hno)). reflexivity.
Qed.

Lemma copies_commute kw1 kw2 i h o r1 h1 o' : nth_error h i = Some o -> NoDup (map fst (declared o)) -> kwargs kw1 -> kwargs kw2 ->
  (forall n, In n (map fst kw1) -> ~ In n (map fst kw2)) ->
  updates [kw1; kw2] i h = (Ok r1, h1) -> nth_error h1 r1 = Some o' ->
  exists r2 h2, updates [kw2; kw1] i h = (Ok r2, h2) /\ nth_error h2 r2 = Some o'.
Proof.
  intros Hi Hnd K1 K2 Hdis H1 Ho'.
  assert (Hk : forall kw, In kw [kw1; kw2] -> kwargs kw) by (intros k [<-|[<-|[]]]; assumption).
  assert (Hk' : forall kw, In kw [kw2; kw1] -> kwargs kw) by (intros k [<-|[<-|[]]]; assumption).
  destruct (updates_inv _ _ _ _ _ Hk H1 ltac:(discriminate)) as (o1 & Ho1 & Hc & Hn). rewrite Hi in Ho1. injection Ho1 as <-.
  destruct (updates_ok [kw2; kw1] i h o Hi Hk' Hc) as (r2 & h2 & o2 & E2 & _).
  { intros k n Hin. apply Hn. destruct Hin as [<-|[<-|[]]]; [right; left; reflexivity|left; reflexivity]. }
  exists r2, h2. split; [exact E2|].
  apply (last_write_perm_eq [kw1; kw2] [kw2; kw1] o o' h i r1 r2 h1 h2 Hi Hnd Hc Hk Hk' H1 E2 Ho').
  - intros n v (b & k & a & E & Hin & Ha).
    destruct b as [|x [|y [|z b]]]; cbn in E; try discriminate.
    + injection E as <- <-. exists [kw2], kw1, []. split; [reflexivity|]. split; [exact Hin|intros k []].
    + injection E as <- <- <-. exists [], kw2, [kw1]. split; [reflexivity|]. split; [exact Hin|]. intros k [<-|[]] Hc1.
      apply (Hdis n Hc1). apply (in_map fst) in Hin. exact Hin.
  - intros n Hno k [<-|[<-|[]]]; apply Hno; [right; left; reflexivity|left; reflexivity].
Qed.
Lemma copies_overwrite kw1 kw2 i h o r1 h1 o' : nth_error h i = Some o -> NoDup (map fst (declared o)) -> kwargs kw1 -> kwargs kw2 ->
  (forall n, In n (map fst kw1) -> In n (map fst kw2)) ->
  updates [kw1; kw2] i h = (Ok r1, h1) -> nth_error h1 r1 = Some o' ->
  exists r2 h2, copy_and_set i kw2 h = (Ok r2, h2) /\ nth_error h2 r2 = Some o'.
Proof.
  intros Hi Hnd K1 K2 Hsub H1 Ho'.
  assert (Hk : forall kw, In kw [kw1; kw2] -> kwargs kw) by (intros k [<-|[<-|[]]]; assumption).
  assert (Hk' : forall kw, In kw [kw2] -> kwargs kw) by (intros k [<-|[]]; assumption).
  destruct (updates_inv _ _ _ _ _ Hk H1 ltac:(discriminate)) as (o1 & Ho1 & Hc & Hn). rewrite Hi in Ho1. injection Ho1 as <-.
  destruct (updates_ok [kw2] i h o Hi Hk' Hc) as (r2 & h2 & o2 & E2 & _).
  { intros k n Hin. apply Hn. destruct Hin as [<-|[]]; right; left; reflexivity. }
  exists r2, h2. split.
  { cbn in E2. destruct (copy_and_set i kw2 h) as [[]]; congruence. }
  apply (last_write_perm_eq [kw1; kw2] [kw2] o o' h i r1 r2 h1 h2 Hi Hnd Hc Hk Hk' H1 E2 Ho').
  - intros n v (b & k & a & E & Hin & Ha).
    destruct b as [|x [|y [|z b]]]; cbn in E; try discriminate.
    + injection E as <- <-. exfalso. apply (Ha kw2 (or_introl eq_refl)). apply Hsub. apply (in_map fst) in Hin. exact Hin.
    + injection E as <- <- <-. exists [], kw2, []. split; [reflexivity|]. split; [exact Hin|]. intros k [].
  - intros n Hno k [<-|[]]. apply Hno. right. left. reflexivity.
Qed.

(** Compiled components are such objects, and the fields mean what they say. *)
Lemma component_fields_distinct j : NoDup (map fst (declared (component_object j))) /\ class_of (component_object j) <> None.
Proof.
  rewrite names_of_declared. unfold component_object.
  destruct (j_ext j) as [W lm []|s []|a hd W []]; cbn; (split; [|discriminate]);
    repeat (constructor; [cbn; intros H; repeat (destruct H as [H|H]; [discriminate|]); exact H|]); constructor.
Qed.
Lemma copy_result o o' : class_of o <> None -> NoDup (map fst (declared o)) -> forall kw, kwargs kw -> (forall n, In n (map fst kw) -> has_field o n) ->
  class_of o' = class_of o -> declared o' = declared o -> (forall n, attr o' n = match assoc n kw with Some v => Some v | None => attr o n end) ->
  forall h i, nth_error h i = Some o -> copy_and_set i kw h = (Ok (List.length h), h ++ [o']).
Proof.
  intros Hc Hnd kw Hk Hf Hc' Hd' Ha h i Hi. destruct (copy_ok i kw h o Hi Hk Hc Hf) as (o2 & E & Hc2 & Hd2 & Ha2).
  rewrite E. f_equal. f_equal. f_equal. apply object_eq; try congruence.
  intros n. rewrite Ha2, Ha. destruct (assoc n kw) eqn:En; [|reflexivity].
  destruct (in_dec string_dec n (map fst (declared o))) as [H|H]; [reflexivity|]. exfalso. apply H. apply Hf.
  destruct (in_dec string_dec n (map fst kw)) as [H2|H2]; [exact H2|]. apply assoc_None in H2. congruence.
Qed.
Lemma copy_gain j g h i : nth_error h i = Some (component_object j) ->
  copy_and_set i [("vector_gain"%string, PArr (tvec g))] h
  = (Ok (List.length h), h ++ [component_object (mkJ (j_dim j) (j_model j) g (j_gain_fn j) (j_mask_idxs j) (j_ext j))]).
Proof.
  intros Hi. destruct j as [dm m g0 gf mk ext]. destruct (component_fields_distinct (mkJ dm m g0 gf mk ext)) as [Hnd Hc].
  revert Hi. apply (copy_result (component_object (mkJ dm m g0 gf mk ext))); try assumption.
  - repeat constructor; cbn; tauto.
  - intros n [<-|[]]. unfold has_field. rewrite names_of_declared. destruct ext as [W lm []|s []|a hd W []]; cbn; tauto.
  - destruct ext as [W lm []|s []|a hd W []]; reflexivity.
  - destruct ext as [W lm []|s []|a hd W []]; reflexivity.
  - intros n. destruct ext as [W lm []|s []|a hd W []]; cbn;
      repeat (match goal with |- context [String.eqb n ?x] => destruct (String.eqb_spec n x) as [->|] end; cbn; try reflexivity).
Qed.
Lemma copy_target j t f v j' h i : with_target j t = Some (f, v, j') -> nth_error h i = Some (component_object j) ->
  copy_and_set i [(f, v)] h = (Ok (List.length h), h ++ [component_object j']).
Proof.
  intros Ht Hi. destruct j as [dm m g0 gf mk ext]. destruct (component_fields_distinct (mkJ dm m g0 gf mk ext)) as [Hnd Hc].
  revert Hi. unfold with_target in Ht. cbn in Ht.
  destruct ext as [W lm k| |]; try discriminate; destruct k; try discriminate; injection Ht as <- <- <-;
  (match goal with |- nth_error _ _ = Some ?o -> _ => apply (copy_result o); try assumption end;
  [ repeat constructor; cbn; tauto
  | intros n [<-|[]]; unfold has_field; rewrite names_of_declared; cbn; tauto
  | reflexivity | reflexivity
  | intros n; cbn;
      repeat (match goal with |- context [String.eqb n ?x] => destruct (String.eqb_spec n x) as [->|] end; cbn; try reflexivity) ]).
Qed.

(** ** C15 *)
Lemma template_outcome pi w :
  match compile pi w with
  | (Ok (OData pd), w') => exists t, set_vmap_dimension pi w = (Ok t, w')
  | (Err e, w') => set_vmap_dimension pi w = (Err e, w')
  | _ => False
  end.
Proof.
  unfold set_vmap_dimension. destruct (compile pi w) as [[o|e] w'] eqn:E; [|reflexivity].
  assert (exists pd, o = OData pd) as [pd ->].
  { unfold compile in E. destruct (nth_error (w_probs w) pi); [|discriminate]. destruct (compile_all _ _) as [[js|]]; [|discriminate]. injection E as <- _. eauto. }
  eauto.
Qed.
Lemma template_is pi w t w' : set_vmap_dimension pi w = (Ok t, w') -> exists pd, compile pi w = (Ok (OData pd), w') /\ t = blank (data_object pd).
Proof.
  unfold set_vmap_dimension. destruct (compile pi w) as [[[| |pd]|e] w''] eqn:E; intros H; try discriminate. injection H as <- <-. eauto.
Qed.
Lemma template_structure pi w t w' pd : set_vmap_dimension pi w = (Ok t, w') -> compile pi w = (Ok (OData pd), w') ->
  (forall q, at_path q t = None <-> at_path q (data_object pd) = None) /\
  (forall q v, at_path q (data_object pd) = Some v -> ~ in_tree q (data_object pd) -> at_path q t = Some v) /\
  (forall q v, at_path q (data_object pd) = Some v -> in_tree q (data_object pd) -> is_leaf v -> at_path q t = Some PNone) /\
  (forall q v, at_path q (data_object pd) = Some v -> in_tree q (data_object pd) -> ~ is_leaf v -> exists v', at_path q t = Some v' /\ same_node v v').
Proof.
  intros H H2. destruct (template_is _ _ _ _ H) as (pd' & E & ->). rewrite E in H2. injection H2 as ->.
  assert (Hin : forall q v, at_path q (data_object pd) = Some v -> at_path q (blank (data_object pd)) = Some v \/ at_path q (blank (data_object pd)) = Some (blank v)).
  { intros q. generalize (data_object pd). induction q as [|n r IH]; intros d v Hv; [cbn in *; right; congruence|].
    destruct d; try discriminate; cbn [at_path blank] in *.
    - rewrite assoc_blank_fields. destruct (assoc n fields) as [[[] x]|]; [left; exact Hv|cbn; apply IH, Hv|discriminate].
    - rewrite assoc_blank_entries. destruct (assoc n entries) as [x|]; [cbn; apply IH, Hv|discriminate]. }
  split; [|split; [|split]].
  - intros q. split; [|apply blank_none]. intros Hq. destruct (at_path q (data_object pd)) as [v|] eqn:Ev; [|reflexivity].
    exfalso. destruct (Hin q v Ev); congruence.
  - intros q v Hv Hn. apply blank_static; assumption.
  - intros q v Hv Hi Hl. rewrite (blank_in q _ v Hi Hv). f_equal. apply blank_leaf. exact Hl.
  - intros q v Hv Hi Hl. exists (blank v). split; [apply blank_in; assumption|]. apply blank_node. exact Hl.
Qed.
Lemma template_components pi w t w' pd : set_vmap_dimension pi w = (Ok t, w') -> compile pi w = (Ok (OData pd), w') ->
  exists es, at_path ["components"%string] t = Some (PDict es) /\ Permutation (map fst es) (map fst (jd_comps pd)) /\
    Sorted (fun a b => String.leb a b = true) (map fst es) /\
    forall n j, assoc n (jd_comps pd) = Some j -> exists o, assoc n es = Some o /\ class_of o = class_of (component_object j) /\ declared o = declared (component_object j).
Proof.
  intros H H2. destruct (template_is _ _ _ _ H) as (pd' & E & ->). rewrite E in H2. injection H2 as ->.
  eexists. split; [reflexivity|]. split; [|split].
  - eapply perm_trans; [apply Permutation_map, perm_ssort|]. rewrite !map_map. cbn. apply Permutation_refl.
  - match goal with |- Sorted _ (map fst (ssort ?l)) => pose proof (sorted_ssort l) as Hs end.
    induction Hs as [|a l Hs IH Ha]; [constructor|]. cbn. constructor; [exact IH|]. destruct Ha; cbn; constructor. assumption.
  - intros n j Hj. rewrite assoc_blank_entries.
    rewrite (assoc_map (fun _ => component_object) (jd_comps pd) n), Hj. cbn [option_map]. eexists. split; [reflexivity|].
    unfold component_object. destruct (j_ext j) as [W lm []|s []|a hd W []]; cbn; split; reflexivity.
Qed.
Lemma template_axes pi w t w' pd paths t' slice : set_vmap_dimension pi w = (Ok t, w') -> compile pi w = (Ok (OData pd), w') -> set_axes paths t = Ok t' ->
  (forall q v, at_path q (data_object pd) = Some v -> in_tree q (data_object pd) -> is_leaf v -> (exists p, In p paths /\ under p q) ->
     at_path q (sample slice t' (data_object pd)) = Some (slice v)) /\
  (forall q v, at_path q (data_object pd) = Some v -> in_tree q (data_object pd) -> is_leaf v -> (forall p, In p paths -> ~ under p q) ->
     at_path q (sample slice t' (data_object pd)) = Some v) /\
  (forall q v, at_path q (data_object pd) = Some v -> ~ in_tree q (data_object pd) -> at_path q (sample slice t' (data_object pd)) = Some v).
Proof.
  intros H H2 Ha. destruct (template_is _ _ _ _ H) as (pd' & E & ->). rewrite E in H2. injection H2 as ->.
  set (d := data_object pd) in *. split; [|split].
  - intros q v Hv Hi Hl Hu. destruct (set_axes_facts paths (blank d) t' d Ha q) as (I1 & I2 & I3).
    rewrite (at_sample slice q t' d v (I1 (blank_agree q d)) Hi Hv Hl), (I2 Hu). reflexivity.
  - intros q v Hv Hi Hl Hu. destruct (set_axes_facts paths (blank d) t' d Ha q) as (I1 & I2 & I3).
    rewrite (at_sample slice q t' d v (I1 (blank_agree q d)) Hi Hv Hl), (I3 Hu), (blank_sliced q d Hi). reflexivity.
  - intros q v Hv Hn. apply sample_static; assumption.
Qed.
(** every place of the data can be given an axis *)
Lemma axis_accepted pi w t w' pd q v : set_vmap_dimension pi w = (Ok t, w') -> compile pi w = (Ok (OData pd), w') ->
  at_path q (data_object pd) = Some v -> exists t', set_axes [q] t = Ok t'.
Proof.
  intros H H2 Hv. destruct (template_structure _ _ _ _ _ H H2) as (Hs & _).
  destruct (assign_ok (PInt 0) q t) as [t' E]; [rewrite Hs; congruence|]. exists t'. cbn. rewrite E. reflexivity.
Qed.

Definition order_prog : list wop := firstn 5 demo_prog.
Lemma order_broken : Forall legal order_prog /\ exists pd t es, fst (compile 0 (state order_prog)) = Ok (OData pd) /\ fst (set_vmap_dimension 0 (state order_prog)) = Ok t /\
  at_path ["components"%string] t = Some (PDict es) /\ map fst (jd_comps pd) = ["reach"%string; "hold"%string] /\ map fst es = ["hold"%string; "reach"%string].
Proof.
  split; [repeat constructor; try exact demo_task_made; exact other_task_made|].
  do 3 eexists. split; [vm_compute; reflexivity|]. split; [vm_compute; reflexivity|]. split; [reflexivity|]. split; reflexivity.
Qed.
(** A concrete batched use: the gain of "reach" is given axis 0. *)
Definition reach_gain : list string := ["components"; "reach"; "vector_gain"]%string.
Lemma axes_case slice : exists pd w' t t' g, set_vmap_dimension 0 (state demo_prog) = (Ok t, w') /\ compile 0 (state demo_prog) = (Ok (OData pd), w') /\
  set_axes [reach_gain] t = Ok t' /\ at_path reach_gain (data_object pd) = Some (PArr (tvec g)) /\ in_tree reach_gain (data_object pd) /\
  at_path reach_gain (sample slice t' (data_object pd)) = Some (slice (PArr (tvec g))) /\
  at_path ["components"; "hold"; "vector_gain"]%string (sample slice t' (data_object pd)) = at_path ["components"; "hold"; "vector_gain"]%string (data_object pd) /\
  at_path ["components"; "reach"; "matrix_cost"]%string t' = Some PNone /\ at_path ["components"; "reach"; "dim"]%string t' = Some (PInt 3).
Proof.
  do 5 eexists. split; [vm_compute; reflexivity|]. split; [vm_compute; reflexivity|]. split; [vm_compute; reflexivity|]. split; [reflexivity|].
  split; [repeat split|]. split; [reflexivity|]. split; [reflexivity|]. split; reflexivity.
Qed.
Definition some_task : jaxc := mkJ 3 arm2 [2; 2; 2]%R (fun x => x) [0; 1; 2]%Z (JTask [[1; 0; 0]; [0; 1; 0]; [0; 0; 1]]%R 0 (JTCom (tvec [0; 0; 1]%R))).
Lemma copies_case : let h := [component_object some_task] in
  let gain g := [("vector_gain"%string, PArr (tvec g))] in let target t := [("target_com"%string, PArr (tvec t))] in
  exists h1 h2 o,
    updates [gain [1; 1; 1]%R; target [5; 5; 5]%R; gain [3; 3; 3]%R] 0 h = (Ok 3, h1) /\ nth_error h1 3 = Some o /\
    updates [gain [3; 3; 3]%R; target [5; 5; 5]%R] 0 h = (Ok 2, h2) /\ nth_error h2 2 = Some o /\
    attr o "vector_gain" = Some (PArr (tvec [3; 3; 3]%R)) /\ attr o "target_com" = Some (PArr (tvec [5; 5; 5]%R)) /\
    updates [gain [1; 1; 1]%R; [("target_pos"%string, PNone)]] 0 h = (Err TypeError, h ++ [component_object (mkJ 3 arm2 [1; 1; 1]%R (fun x => x) [0; 1; 2]%Z (j_ext some_task))]).
Proof.
  cbn zeta. do 3 eexists. split; [vm_compute; reflexivity|]. split; [reflexivity|]. split; [vm_compute; reflexivity|]. split; [reflexivity|].
  split; [reflexivity|]. split; [reflexivity|]. vm_compute. reflexivity.
Qed.
