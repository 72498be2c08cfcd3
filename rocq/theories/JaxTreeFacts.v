(** Facts about copy_and_set and vmap templates. *)
From Verif Require Import Base Lin Mjx Typing Component Problem JaxTree SpecJaxTree.
Open Scope nat_scope.

(** ** dictionaries *)
Lemma assoc_dict_set {A} n (v : A) d m : assoc m (dict_set n v d) = if String.eqb m n then Some v else assoc m d.
Proof.
  induction d as [|[k w] r IH]; cbn.
  - destruct (String.eqb m n); reflexivity.
  - destruct (String.eqb_spec n k) as [->|Hk]; cbn.
    + destruct (String.eqb m k); reflexivity.
    + destruct (String.eqb_spec m k) as [->|Hm].
      * destruct (String.eqb_spec k n); [congruence|reflexivity].
      * exact IH.
Qed.
Lemma names_dict_set {A} n (v : A) d m : In m (map fst (dict_set n v d)) <-> m = n \/ In m (map fst d).
Proof.
  induction d as [|[k w] r IH]; cbn.
  - intuition congruence.
  - destruct (String.eqb_spec n k) as [->|Hk]; cbn.
    + intuition congruence.
    + rewrite IH. intuition congruence.
Qed.
Lemma assoc_None {A} n (d : list (string * A)) : assoc n d = None <-> ~ In n (map fst d).
Proof.
  induction d as [|[k w] r IH]; cbn; [tauto|].
  destruct (String.eqb_spec n k) as [->|Hk].
  - split; [discriminate|]. intros H. exfalso. apply H. left. reflexivity.
  - rewrite IH. intuition congruence.
Qed.
Lemma assoc_In {A} n (v : A) d : NoDup (map fst d) -> In (n, v) d -> assoc n d = Some v.
Proof.
  induction d as [|[k w] r IH]; cbn; [tauto|]. intros Hnd Hin. inversion Hnd as [|? ? Hk Hr]; subst.
  destruct Hin as [E|Hin].
  - injection E as -> ->. rewrite String.eqb_refl. reflexivity.
  - destruct (String.eqb_spec n k) as [->|].
    + exfalso. apply Hk. apply (in_map fst) in Hin. exact Hin.
    + apply IH; assumption.
Qed.
Lemma assoc_dict_or {A} (kw : list (string * A)) : forall d m, NoDup (map fst kw) ->
  assoc m (dict_or d kw) = match assoc m kw with Some v => Some v | None => assoc m d end.
Proof.
  unfold dict_or. induction kw as [|[k w] r IH]; intros d m Hnd; cbn [fold_left assoc fst snd]; [reflexivity|].
  inversion Hnd as [|? ? Hk Hr]; subst. rewrite IH by exact Hr. rewrite assoc_dict_set.
  destruct (String.eqb_spec m k) as [->|]; [|reflexivity].
  replace (assoc k r) with (@None A); [reflexivity|]. symmetry. apply assoc_None. exact Hk.
Qed.
Lemma names_dict_or {A} (kw : list (string * A)) : forall d m,
  In m (map fst (dict_or d kw)) <-> In m (map fst kw) \/ In m (map fst d).
Proof.
  unfold dict_or. induction kw as [|[k w] r IH]; intros d m; cbn [fold_left map fst snd In]; [tauto|].
  rewrite IH, names_dict_set. intuition congruence.
Qed.

(** ** copy_and_set *)
Lemma existsb_name n l : existsb (String.eqb n) l = true <-> In n l.
Proof. rewrite existsb_exists. split; [intros (x & Hx & E); apply String.eqb_eq in E; congruence|]. intros H. exists n. split; [exact H|apply String.eqb_refl]. Qed.

Definition rebuilt (fs : list (string * (bool * py))) (kw : list (string * py)) : list (string * (bool * py)) :=
  map (fun f => (fst f, (fst (snd f), match assoc (fst f) kw with Some v => v | None => match assoc (fst f) fs with Some (_, v) => v | None => snd (snd f) end end))) fs.

Lemma assoc_map_snd (fs : list (string * (bool * py))) n :
  assoc n (map (fun f => (fst f, snd (snd f))) fs) = option_map snd (assoc n fs).
Proof. induction fs as [|[k [s v]] r IH]; cbn; [reflexivity|]. destruct (String.eqb n k); [reflexivity|exact IH]. Qed.

Lemma construct_ok cls fs kw : NoDup (map fst kw) -> (forall n, In n (map fst kw) -> In n (map fst fs)) ->
  construct cls (map (fun f => (fst f, fst (snd f))) fs) (dict_or (map (fun f => (fst f, snd (snd f))) fs) kw) = Ok (PObj cls (rebuilt fs kw)).
Proof.
  intros Hnd Hin. unfold construct.
  assert (Hnames : map fst (map (fun f : string * (bool * py) => (fst f, fst (snd f))) fs) = map fst fs) by (rewrite map_map; reflexivity).
  assert (Hnames' : map fst (map (fun f : string * (bool * py) => (fst f, snd (snd f))) fs) = map fst fs) by (rewrite map_map; reflexivity).
  replace (forallb _ _) with true.
  2:{ symmetry. apply forallb_forall. intros [n v] Hnv. cbn [fst]. apply existsb_name. rewrite Hnames.
      apply (in_map fst) in Hnv. apply names_dict_or in Hnv. rewrite Hnames' in Hnv. destruct Hnv as [H|H]; [apply Hin, H|exact H]. }
  set (args := dict_or _ kw).
  assert (HM : forall gs, (forall f, In f gs -> In (fst f) (map fst fs)) ->
     mapM (fun f : string * bool => match assoc (fst f) args with Some v => Ok (fst f, (snd f, v)) | None => Err TypeError end) (map (fun f => (fst f, fst (snd f))) gs)
     = Ok (map (fun f => (fst f, (fst (snd f), match assoc (fst f) kw with Some v => v | None => match assoc (fst f) fs with Some (_, v) => v | None => snd (snd f) end end))) gs)).
  { induction gs as [|[n [s v]] r IH]; intros Hg; cbn [map mapM fst snd]; [reflexivity|].
    unfold args. rewrite assoc_dict_or by exact Hnd. rewrite assoc_map_snd.
    destruct (assoc n kw) as [x|] eqn:E1.
    - cbn [bind]. fold args. rewrite IH by (intros f Hf; apply Hg; right; exact Hf). reflexivity.
    - destruct (assoc n fs) as [[s' x]|] eqn:E2.
      + cbn [option_map snd bind]. fold args. rewrite IH by (intros f Hf; apply Hg; right; exact Hf). reflexivity.
      + exfalso. apply assoc_None in E2. apply E2. exact (Hg _ (or_introl eq_refl)). }
  rewrite HM; [reflexivity|]. intros f Hf. apply in_map. exact Hf.
Qed.

Lemma construct_err cls fs kw n : In n (map fst kw) -> ~ In n (map fst fs) ->
  construct cls (map (fun f => (fst f, fst (snd f))) fs) (dict_or (map (fun f => (fst f, snd (snd f))) fs) kw) = Err TypeError.
Proof.
  intros Hn Hno. unfold construct. replace (forallb _ _) with false; [reflexivity|].
  symmetry. apply Bool.not_true_is_false. rewrite forallb_forall. intros H.
  assert (Hx : In n (map fst (dict_or (map (fun f : string * (bool * py) => (fst f, snd (snd f))) fs) kw))) by (apply names_dict_or; left; exact Hn).
  apply in_map_iff in Hx as ([n' v] & En & Hin). cbn in En. subst n'. specialize (H _ Hin). cbn [fst] in H.
  apply existsb_name in H. rewrite map_map in H. apply Hno. exact H.
Qed.

Lemma declared_rebuilt cls fs kw : declared (PObj cls (rebuilt fs kw)) = declared (PObj cls fs).
Proof. cbn. unfold rebuilt. rewrite map_map. reflexivity. Qed.
Lemma assoc_rebuilt fs kw n : assoc n (rebuilt fs kw) = match assoc n fs with None => None | Some (s, v) => Some (s, match assoc n kw with Some w => w | None => v end) end.
Proof.
  unfold rebuilt. set (all := fs) at 1.
  assert (HG : forall gs, (forall m s v, assoc m gs = Some (s, v) -> assoc m gs = assoc m all \/ True) ->
    assoc n (map (fun f : string * (bool * py) => (fst f, (fst (snd f), match assoc (fst f) kw with Some v => v | None => match assoc (fst f) all with Some (_, v) => v | None => snd (snd f) end end))) gs)
    = match assoc n gs with None => None | Some (s, v) => Some (s, match assoc n kw with Some w => w | None => match assoc n all with Some (_, w) => w | None => v end end) end).
  { induction gs as [|[k [s v]] r IH]; intros _; cbn [map assoc fst snd]; [reflexivity|].
    destruct (String.eqb_spec n k) as [->|]; [reflexivity|]. apply IH. intros; right; exact I. }
  rewrite HG by (intros; right; exact I). unfold all. destruct (assoc n fs) as [[s v]|] eqn:E; reflexivity.
Qed.

Lemma names_of_declared o : map fst (declared o) = match o with PObj _ fs => map fst fs | _ => [] end.
Proof. destruct o; try reflexivity. cbn. rewrite map_map. reflexivity. Qed.
Lemma attr_has o n : attr o n <> None <-> has_field o n.
Proof.
  unfold attr, has_field. rewrite names_of_declared. destruct o; try (cbn; tauto).
  destruct (assoc n fields) eqn:E; cbn.
  - split; [|discriminate]. intros _. destruct (in_dec string_dec n (map fst fields)) as [H|H]; [exact H|].
    apply assoc_None in H. congruence.
  - split; [congruence|]. intros H. apply assoc_None in E. tauto.
Qed.

Lemma copy_ok i kw h o : nth_error h i = Some o -> kwargs kw -> class_of o <> None -> (forall n, In n (map fst kw) -> has_field o n) ->
  exists o', copy_and_set i kw h = (Ok (List.length h), h ++ [o']) /\ class_of o' = class_of o /\ declared o' = declared o /\
    forall n, attr o' n = match assoc n kw with Some v => if in_dec string_dec n (map fst (declared o)) then Some v else None | None => attr o n end.
Proof.
  intros Hi Hkw Hc Hin. destruct o as [| | | | | | | | | | | |cls fs|]; try (exfalso; apply Hc; reflexivity).
  unfold copy_and_set. rewrite Hi. rewrite construct_ok; [| exact Hkw |].
  2:{ intros n Hn. specialize (Hin n Hn). unfold has_field in Hin. rewrite names_of_declared in Hin. exact Hin. }
  exists (PObj cls (rebuilt fs kw)). split; [reflexivity|]. split; [reflexivity|]. split; [apply declared_rebuilt|].
  intros n. cbn [attr]. rewrite assoc_rebuilt. rewrite names_of_declared.
  destruct (assoc n kw) as [v|] eqn:E.
  - destruct (in_dec string_dec n (map fst fs)) as [H|H].
    + destruct (assoc n fs) as [[s x]|] eqn:E2; [reflexivity|]. apply assoc_None in E2. tauto.
    + apply assoc_None in H. rewrite H. reflexivity.
  - destruct (assoc n fs) as [[s x]|]; reflexivity.
Qed.
Lemma copy_unknown i kw h o n : nth_error h i = Some o -> class_of o <> None -> In n (map fst kw) -> ~ has_field o n ->
  copy_and_set i kw h = (Err TypeError, h).
Proof.
  intros Hi Hc Hn Hno. destruct o as [| | | | | | | | | | | |cls fs|]; try (exfalso; apply Hc; reflexivity).
  unfold copy_and_set. rewrite Hi. rewrite (construct_err _ _ _ n); [reflexivity|exact Hn|].
  unfold has_field in Hno. rewrite names_of_declared in Hno. exact Hno.
Qed.
Lemma copy_inv i kw h r h' : copy_and_set i kw h = (Ok r, h') -> exists o, nth_error h i = Some o /\ class_of o <> None /\ (forall n, In n (map fst kw) -> has_field o n).
Proof.
  intros H. destruct (nth_error h i) as [o|] eqn:E; [|unfold copy_and_set in H; rewrite E in H; discriminate].
  exists o. split; [reflexivity|].
  assert (Hc : class_of o <> None) by (unfold copy_and_set in H; rewrite E in H; destruct o; try discriminate; cbn; discriminate).
  split; [exact Hc|]. intros n Hn. destruct (in_dec string_dec n (map fst (declared o))) as [Hd|Hd]; [exact Hd|].
  rewrite (copy_unknown _ _ _ _ n E Hc Hn Hd) in H. discriminate.
Qed.
Lemma copy_heap i kw h : exists new, snd (copy_and_set i kw h) = h ++ new.
Proof.
  unfold copy_and_set. destruct (nth_error h i) as [[]|]; try (exists []; symmetry; apply app_nil_r).
  destruct (construct _ _ _); [eexists; reflexivity|exists []; symmetry; apply app_nil_r].
Qed.
Lemma updates_heap kws : forall i h, exists new, snd (updates kws i h) = h ++ new.
Proof.
  induction kws as [|kw r IH]; intros i h; cbn [updates].
  - exists []. symmetry. apply app_nil_r.
  - destruct (copy_heap i kw h) as [n1 E1]. destruct (copy_and_set i kw h) as [[i'|e] h1]; cbn in E1; subst h1.
    + destruct (IH i' (h ++ n1)) as [n2 E2]. exists (n1 ++ n2). rewrite E2, app_assoc. reflexivity.
    + exists n1. reflexivity.
Qed.

(** [lw kws n]: the value of the last write, computed. *)
Fixpoint lw (kws : list (list (string * py))) (n : string) : option py :=
  match kws with [] => None | kw :: r => match lw r n with Some v => Some v | None => assoc n kw end end.
Lemma lw_never kws n : never_written kws n -> lw kws n = None.
Proof.
  induction kws as [|kw r IH]; intros H; [reflexivity|]. cbn. rewrite IH by (intros k Hk; apply H; right; exact Hk).
  apply assoc_None. apply H. left. reflexivity.
Qed.
Lemma lw_last kws n v : (forall kw, In kw kws -> kwargs kw) -> last_write kws n v -> lw kws n = Some v.
Proof.
  intros Hk (b & kw & a & -> & Hin & Ha). induction b as [|x b IH]; cbn.
  - rewrite (lw_never a n Ha). apply assoc_In; [apply Hk; left; reflexivity|exact Hin].
  - rewrite IH; [reflexivity|]. intros k Hk'. apply Hk. right. exact Hk'.
Qed.
Lemma nth_last {A} (h : list A) x : nth_error (h ++ [x]) (List.length h) = Some x.
Proof. rewrite nth_error_app2 by lia. rewrite Nat.sub_diag. reflexivity. Qed.
Lemma updates_ok kws : forall i h o, nth_error h i = Some o -> (forall kw, In kw kws -> kwargs kw) -> class_of o <> None ->
  (forall kw n, In kw kws -> In n (map fst kw) -> has_field o n) ->
  exists r h' o', updates kws i h = (Ok r, h') /\ nth_error h' r = Some o' /\ class_of o' = class_of o /\ declared o' = declared o /\
    forall n, attr o' n = match lw kws n with Some v => Some v | None => attr o n end.
Proof.
  induction kws as [|kw r IH]; intros i h o Hi Hk Hc Hn; cbn [updates].
  - exists i, h, o. repeat split; assumption || reflexivity.
  - destruct (copy_ok i kw h o Hi (Hk _ (or_introl eq_refl)) Hc (fun n H => Hn kw n (or_introl eq_refl) H)) as (o1 & E & Hc1 & Hd1 & Ha1).
    rewrite E.
    destruct (IH (List.length h) (h ++ [o1]) o1) as (r' & h' & o' & E' & Hr & Hc' & Hd' & Ha').
    + apply nth_last.
    + intros k H. apply Hk. right. exact H.
    + rewrite Hc1. exact Hc.
    + intros k n H1 H2. unfold has_field. rewrite Hd1. exact (Hn k n (or_intror H1) H2).
    + exists r', h', o'. split; [exact E'|]. split; [exact Hr|]. split; [congruence|]. split; [congruence|].
      intros n. rewrite Ha'. cbn [lw]. destruct (lw r n); [reflexivity|]. rewrite Ha1.
      destruct (assoc n kw) as [v|] eqn:Ea; [|reflexivity].
      destruct (in_dec string_dec n (map fst (declared o))) as [H|H]; [reflexivity|].
      exfalso. apply H. apply (Hn kw n (or_introl eq_refl)).
      destruct (in_dec string_dec n (map fst kw)) as [H2|H2]; [exact H2|]. apply assoc_None in H2. congruence.
Qed.
Lemma updates_inv kws : forall i h r h', (forall kw, In kw kws -> kwargs kw) -> updates kws i h = (Ok r, h') -> kws <> [] ->
  exists o, nth_error h i = Some o /\ class_of o <> None /\ (forall kw n, In kw kws -> In n (map fst kw) -> has_field o n).
Proof.
  induction kws as [|kw rest IH]; intros i h r h' Hk H Hne; [congruence|]. cbn [updates] in H.
  destruct (copy_and_set i kw h) as [[i'|e] h1] eqn:E; [|discriminate].
  destruct (copy_inv _ _ _ _ _ E) as (o & Ho & Hc & Hn). exists o. split; [exact Ho|]. split; [exact Hc|].
  destruct (copy_ok i kw h o Ho (Hk _ (or_introl eq_refl)) Hc Hn) as (o1 & E1 & Hc1 & Hd1 & Ha1). rewrite E1 in E. injection E as <- <-.
  intros k n [<-|Hkin] Hnin; [exact (Hn n Hnin)|].
  assert (rest <> []) by (intros ->; exact Hkin).
  destruct (IH _ _ _ _ (fun k' H' => Hk k' (or_intror H')) H H0) as (o2 & Ho2 & _ & Hn2).
  rewrite nth_last in Ho2. injection Ho2 as <-. specialize (Hn2 k n Hkin Hnin). unfold has_field in *. rewrite Hd1 in Hn2. exact Hn2.
Qed.

(** two objects of one class, with the same declarations (distinct names) and the
    same attributes are equal *)
Lemma assoc_snd_eq (fs gs : list (string * (bool * py))) :
  NoDup (map fst fs) -> map (fun f => (fst f, fst (snd f))) fs = map (fun f => (fst f, fst (snd f))) gs ->
  (forall n, option_map snd (assoc n fs) = option_map snd (assoc n gs)) -> fs = gs.
Proof.
  revert gs. induction fs as [|[n [s v]] r IH]; intros [|[n' [s' v']] r'] Hnd Hd Ha; cbn in Hd; try discriminate; [reflexivity|].
  injection Hd as <- <- Hd. inversion Hnd as [|? ? Hn Hr]; subst. pose proof (Ha n) as Hv. cbn in Hv. rewrite String.eqb_refl in Hv. cbn in Hv. injection Hv as <-.
  f_equal. apply IH; [exact Hr|exact Hd|]. intros m. specialize (Ha m). cbn in Ha.
  destruct (String.eqb_spec m n) as [Emn|]; [|exact Ha]. rewrite Emn. clear Ha.
  assert (Hn' : ~ In n (map fst r')).
  { replace (map fst r') with (map fst r); [exact Hn|].
    assert (Hm : map fst (map (fun f : string * (bool * py) => (fst f, fst (snd f))) r) = map fst (map (fun f : string * (bool * py) => (fst f, fst (snd f))) r')) by congruence.
    rewrite !map_map in Hm. exact Hm. }
  apply assoc_None in Hn, Hn'. rewrite Hn, Hn'. reflexivity.
Qed.
Lemma object_eq o o' : class_of o <> None -> NoDup (map fst (declared o)) -> class_of o' = class_of o -> declared o' = declared o ->
  (forall n, attr o' n = attr o n) -> o' = o.
Proof.
  destruct o as [| | | | | | | | | | | |c fs|]; try (intros H; exfalso; apply H; reflexivity).
  destruct o' as [| | | | | | | | | | | |c' gs|]; try (intros _ _ H; discriminate). cbn [class_of].
  rewrite names_of_declared. intros _ Hnd Hc Hd Ha. injection Hc as <-. f_equal. symmetry. apply assoc_snd_eq; [exact Hnd|symmetry; exact Hd|].
  intros n. symmetry. exact (Ha n).
Qed.

(** ** templates *)
Lemma leb_refl s : String.leb s s = true.
Proof. destruct (String.leb_total s s); assumption. Qed.
Lemma assoc_sinsert {A} (e : string * A) l n : assoc n (sinsert e l) = if String.eqb n (fst e) then Some (snd e) else assoc n l.
Proof.
  destruct e as [k v]. induction l as [|[k' v'] r IH]; cbn [sinsert assoc fst snd]; [reflexivity|].
  destruct (String.leb k k') eqn:E; cbn [assoc].
  - reflexivity.
  - destruct (String.eqb_spec n k') as [->|].
    + destruct (String.eqb_spec k' k) as [->|]; [rewrite leb_refl in E; discriminate|reflexivity].
    + exact IH.
Qed.
Lemma assoc_ssort {A} (l : list (string * A)) n : assoc n (ssort l) = assoc n l.
Proof.
  induction l as [|[k v] r IH]; [reflexivity|]. change (ssort ((k, v) :: r)) with (sinsert (k, v) (ssort r)).
  rewrite assoc_sinsert. cbn [fst snd assoc]. rewrite IH. reflexivity.
Qed.
Lemma perm_sinsert {A} (e : string * A) l : Permutation (sinsert e l) (e :: l).
Proof.
  induction l as [|f r IH]; cbn; [apply Permutation_refl|]. destruct (String.leb (fst e) (fst f)); [apply Permutation_refl|].
  eapply perm_trans; [apply perm_skip, IH|apply perm_swap].
Qed.
Lemma perm_ssort {A} (l : list (string * A)) : Permutation (ssort l) l.
Proof.
  induction l as [|e r IH]; [apply Permutation_refl|]. change (ssort (e :: r)) with (sinsert e (ssort r)).
  eapply perm_trans; [apply perm_sinsert|apply perm_skip, IH].
Qed.
Lemma leb_other a b : String.leb a b = false -> String.leb b a = true.
Proof. intros H. destruct (String.leb_total a b) as [E|E]; [rewrite E in H; discriminate|exact E]. Qed.
Lemma sorted_sinsert {A} (e : string * A) l : Sorted (fun a b => String.leb (fst a) (fst b) = true) l ->
  Sorted (fun a b => String.leb (fst a) (fst b) = true) (sinsert e l).
Proof.
  induction l as [|f r IH]; intros H; cbn; [repeat constructor|].
  destruct (String.leb (fst e) (fst f)) eqn:E; [constructor; [exact H|constructor; exact E]|].
  apply Sorted_inv in H as [Hr Hf]. constructor; [apply IH, Hr|].
  destruct r as [|g r']; cbn; [constructor; apply leb_other; exact E|].
  destruct (String.leb (fst e) (fst g)); constructor; [apply leb_other; exact E|]. inversion Hf; assumption.
Qed.
Lemma sorted_ssort {A} (l : list (string * A)) : Sorted (fun a b => String.leb (fst a) (fst b) = true) (ssort l).
Proof. induction l as [|e r IH]; [constructor|]. change (ssort (e :: r)) with (sinsert e (ssort r)). apply sorted_sinsert, IH. Qed.

Lemma assoc_map {A B} (f : string -> A -> B) l n : assoc n (map (fun e => (fst e, f (fst e) (snd e))) l) = option_map (f n) (assoc n l).
Proof. induction l as [|[k v] r IH]; cbn; [reflexivity|]. destruct (String.eqb_spec n k) as [->|]; [reflexivity|exact IH]. Qed.

Lemma assoc_blank_fields fs n :
  assoc n (map (fun f : string * (bool * py) => (fst f, (fst (snd f), if fst (snd f) then snd (snd f) else blank (snd (snd f))))) fs)
  = option_map (fun sv : bool * py => (fst sv, if fst sv then snd sv else blank (snd sv))) (assoc n fs).
Proof. exact (assoc_map (fun _ (sv : bool * py) => (fst sv, if fst sv then snd sv else blank (snd sv))) fs n). Qed.
Lemma assoc_blank_entries es n :
  assoc n (ssort (map (fun e : string * py => (fst e, blank (snd e))) es)) = option_map blank (assoc n es).
Proof. rewrite assoc_ssort. exact (assoc_map (fun _ => blank) es n). Qed.

Lemma blank_none q : forall d, at_path q d = None -> at_path q (blank d) = None.
Proof.
  induction q as [|n r IH]; intros d H; [discriminate|].
  destruct d; try reflexivity; cbn [at_path blank] in *.
  - rewrite assoc_blank_fields. destruct (assoc n fields) as [[[] v]|]; cbn; [exact H|apply IH, H|reflexivity].
  - rewrite assoc_blank_entries. destruct (assoc n entries) as [v|]; cbn; [apply IH, H|reflexivity].
Qed.
Lemma blank_in q : forall d v, in_tree q d -> at_path q d = Some v -> at_path q (blank d) = Some (blank v).
Proof.
  induction q as [|n r IH]; intros d v Hi H; [cbn in *; congruence|].
  destruct d; try (cbn in Hi; contradiction); cbn [at_path blank in_tree] in *.
  - rewrite assoc_blank_fields. destruct (assoc n fields) as [[s x]|]; [|contradiction]. destruct Hi as [-> Hi]. cbn. apply IH; assumption.
  - rewrite assoc_blank_entries. destruct (assoc n entries) as [x|]; [|contradiction]. cbn. apply IH; assumption.
Qed.
Lemma blank_static q : forall d v, ~ in_tree q d -> at_path q d = Some v -> at_path q (blank d) = Some v.
Proof.
  induction q as [|n r IH]; intros d v Hi H; [exfalso; apply Hi; exact I|].
  destruct d; try discriminate; cbn [at_path blank in_tree] in *.
  - rewrite assoc_blank_fields. destruct (assoc n fields) as [[s x]|]; [|discriminate]. destruct s; cbn; [exact H|]. apply IH; [|exact H]. tauto.
  - rewrite assoc_blank_entries. destruct (assoc n entries) as [x|]; [|discriminate]. cbn. apply IH; assumption.
Qed.
Lemma blank_leaf v : is_leaf v -> blank v = PNone.
Proof. destruct v; cbn; tauto || reflexivity. Qed.
Lemma blank_node v : ~ is_leaf v -> same_node v (blank v).
Proof.
  destruct v; cbn [is_leaf]; try tauto; intros _; cbn [blank same_node].
  - split; [reflexivity|]. cbn. rewrite map_map. reflexivity.
  - apply Permutation_sym. eapply perm_trans; [apply Permutation_map, perm_ssort|]. rewrite map_map. apply Permutation_refl.
Qed.

(** ** axes *)
Fixpoint sliced (q : list string) (t : py) : bool :=
  match t with
  | PNone => false
  | PObj _ ts => match q with n :: r => match assoc n ts with Some (_, t') => sliced r t' | None => false end | [] => false end
  | PDict ts => match q with n :: r => match assoc n ts with Some t' => sliced r t' | None => false end | [] => false end
  | _ => true
  end.
Lemma sliced_nil t : sliced [] t = match t with PNone => false | PObj _ _ | PDict _ => false | _ => true end.
Proof. destruct t; reflexivity. Qed.

Lemma at_each f q : forall d v, in_tree q d -> at_path q d = Some v -> is_leaf v -> at_path q (each_leaf f d) = Some (f v).
Proof.
  induction q as [|n r IH]; intros d v Hi H Hl.
  - cbn in H. injection H as ->. destruct v; cbn in Hl; tauto || reflexivity.
  - destruct d; try (cbn in Hi; contradiction); cbn [at_path each_leaf in_tree] in *.
    + rewrite (assoc_map (fun _ (sv : bool * py) => (fst sv, if fst sv then snd sv else each_leaf f (snd sv))) fields n).
      destruct (assoc n fields) as [[s x]|]; [|contradiction]. destruct Hi as [-> Hi]. cbn. apply IH; assumption.
    + rewrite (assoc_map (fun _ => each_leaf f) entries n). destruct (assoc n entries) as [x|]; [|contradiction]. cbn. apply IH; assumption.
Qed.
Lemma each_static f q : forall d v, ~ in_tree q d -> at_path q d = Some v -> at_path q (each_leaf f d) = Some v.
Proof.
  induction q as [|n r IH]; intros d v Hi H; [exfalso; apply Hi; exact I|].
  destruct d; try discriminate; cbn [at_path each_leaf in_tree] in *.
  + rewrite (assoc_map (fun _ (sv : bool * py) => (fst sv, if fst sv then snd sv else each_leaf f (snd sv))) fields n).
    destruct (assoc n fields) as [[s x]|]; [|discriminate]. destruct s; cbn; [exact H|]. apply IH; [|exact H]. tauto.
  + rewrite (assoc_map (fun _ => each_leaf f) entries n). destruct (assoc n entries) as [x|]; [|discriminate]. cbn. apply IH; assumption.
Qed.

(** The template has the same kinds of nodes as the data along the path. *)
Fixpoint agree (q : list string) (t d : py) : Prop :=
  match t with
  | PObj _ ts => match d with PObj _ _ => True | _ => False end /\
      match q with n :: r => match assoc n ts with Some (_, t') => forall d', at_path [n] d = Some d' -> agree r t' d' | None => True end | [] => True end
  | PDict ts => match d with PDict _ => True | _ => False end /\
      match q with n :: r => match assoc n ts with Some t' => forall d', at_path [n] d = Some d' -> agree r t' d' | None => True end | [] => True end
  | _ => True
  end.

Lemma at_sample f q : forall t d v, agree q t d -> in_tree q d -> at_path q d = Some v -> is_leaf v ->
  at_path q (sample f t d) = Some (if sliced q t then f v else v).
Proof.
  induction q as [|n r IH]; intros t d v Hg Hi H Hl.
  - cbn in H. injection H as ->. rewrite sliced_nil. destruct v; cbn in Hl; try tauto; destruct t; reflexivity.
  - destruct t as [| | | | | | | | | | | |c ts|ts];
      try (replace (sample f _ d) with (each_leaf f d) by (destruct d; reflexivity); cbn [sliced]; apply at_each; assumption).
    + replace (sample f PNone d) with d by (destruct d; reflexivity). exact H.
    + cbn [agree] in Hg. destruct Hg as [Hk Hg]. destruct d; try contradiction; cbn [at_path sample in_tree sliced] in *.
      rewrite (assoc_map (fun m (sv : bool * py) => (fst sv, if fst sv then snd sv else match assoc m ts with Some (_, t') => sample f t' (snd sv) | None => snd sv end)) fields n).
      destruct (assoc n fields) as [[s x]|]; [|contradiction]. destruct Hi as [-> Hi]. cbn [option_map fst snd].
      destruct (assoc n ts) as [[s' t']|]; [apply IH; auto|exact H].
    + cbn [agree] in Hg. destruct Hg as [Hk Hg]. destruct d; try contradiction; cbn [at_path sample in_tree sliced] in *.
      rewrite (assoc_map (fun m x => match assoc m ts with Some t' => sample f t' x | None => x end) entries n).
      destruct (assoc n entries) as [x|]; [|contradiction]. cbn [option_map].
      destruct (assoc n ts) as [t'|]; [apply IH; auto|exact H].
Qed.
Lemma sample_static f q : forall t d v, ~ in_tree q d -> at_path q d = Some v -> at_path q (sample f t d) = Some v.
Proof.
  induction q as [|n r IH]; intros t d v Hi H; [exfalso; apply Hi; exact I|].
  destruct t as [| | | | | | | | | | | |c ts|ts];
      try (replace (sample f _ d) with (each_leaf f d) by (destruct d; reflexivity); apply each_static; assumption).
  - replace (sample f PNone d) with d by (destruct d; reflexivity). exact H.
  - destruct d; try discriminate; try exact H. cbn [at_path sample in_tree] in *.
    rewrite (assoc_map (fun m (sv : bool * py) => (fst sv, if fst sv then snd sv else match assoc m ts with Some (_, t') => sample f t' (snd sv) | None => snd sv end)) fields n).
    destruct (assoc n fields) as [[s x]|]; [|discriminate]. cbn [option_map fst snd]. destruct s; [exact H|].
    destruct (assoc n ts) as [[s' t']|]; [apply IH; tauto|exact H].
  - destruct d; try discriminate; try exact H. cbn [at_path sample in_tree] in *.
    rewrite (assoc_map (fun m x => match assoc m ts with Some t' => sample f t' x | None => x end) entries n).
    destruct (assoc n entries) as [x|]; [|discriminate]. cbn [option_map].
    destruct (assoc n ts) as [t'|]; [apply IH; tauto|exact H].
Qed.

Lemma blank_agree q : forall d, agree q (blank d) d.
Proof.
  induction q as [|n r IH]; intros d; destruct d; cbn [blank agree]; try exact I; split; try exact I.
  - rewrite assoc_blank_fields. destruct (assoc n fields) as [[s x]|] eqn:E; cbn [option_map]; [|exact I].
    intros d' Hd. cbn [at_path] in Hd. rewrite E in Hd. injection Hd as ->. cbn [fst snd]. destruct s; [|apply IH].
    clear. revert d'. induction r as [|m r IH]; intros d'; destruct d'; cbn [agree]; try exact I; (split; [exact I|]); try exact I.
    + destruct (assoc m fields) as [[s x]|] eqn:E; [|exact I]. intros d' Hd. cbn [at_path] in Hd. rewrite E in Hd. injection Hd as <-. apply IH.
    + destruct (assoc m entries) as [x|] eqn:E; [|exact I]. intros d' Hd. cbn [at_path] in Hd. rewrite E in Hd. injection Hd as <-. apply IH.
  - rewrite assoc_blank_entries. destruct (assoc n entries) as [x|] eqn:E; cbn [option_map]; [|exact I].
    intros d' Hd. cbn [at_path] in Hd. rewrite E in Hd. injection Hd as <-. apply IH.
Qed.
Lemma blank_sliced q : forall d, in_tree q d -> sliced q (blank d) = false.
Proof.
  induction q as [|n r IH]; intros d Hi; [destruct d; reflexivity|]. destruct d; try reflexivity; cbn [blank sliced in_tree] in *.
  - rewrite assoc_blank_fields. destruct (assoc n fields) as [[s x]|]; [|contradiction]. destruct Hi as [-> Hi]. cbn. apply IH, Hi.
  - rewrite assoc_blank_entries. destruct (assoc n entries) as [x|]; [|contradiction]. cbn. apply IH, Hi.
Qed.

(** assignments *)
Lemma dict_set_names {A B} n (v : A) (f : A -> B) d : option_map f (assoc n d) = Some (f v) ->
  map (fun e => (fst e, f (snd e))) (dict_set n v d) = map (fun e => (fst e, f (snd e))) d.
Proof.
  induction d as [|[k w] r IH]; cbn; [discriminate|]. destruct (String.eqb n k); cbn; [intros H; injection H as H; congruence|intros H; f_equal; apply IH, H].
Qed.
Lemma assign_obj n r v c fs t' : assign (n :: r) v (PObj c fs) = Ok t' ->
  exists fs' s x x', t' = PObj c fs' /\ map (fun f => (fst f, fst (snd f))) fs' = map (fun f => (fst f, fst (snd f))) fs /\
   (forall m, m <> n -> assoc m fs' = assoc m fs) /\ assoc n fs = Some (s, x) /\ assign r v x = Ok x' /\ assoc n fs' = Some (s, x').
Proof.
  intros H. cbn [assign] in H. destruct (assoc n fs) as [[s x]|] eqn:E; [|discriminate].
  destruct (assign r v x) as [x'|] eqn:Ea; cbn [bind] in H; [|discriminate]. injection H as <-.
  exists (dict_set n (s, x') fs), s, x, x'. split; [reflexivity|]. split; [apply (dict_set_names n (s, x') fst); rewrite E; reflexivity|].
  split; [|split; [reflexivity|split; [exact Ea|]]].
  - intros m Hm. rewrite assoc_dict_set. destruct (String.eqb_spec m n); [contradiction|reflexivity].
  - rewrite assoc_dict_set, String.eqb_refl. reflexivity.
Qed.
Lemma assign_dict n r v es t' : assign (n :: r) v (PDict es) = Ok t' ->
  exists es' x x', t' = PDict es' /\ map fst es' = map fst es /\
   (forall m, m <> n -> assoc m es' = assoc m es) /\ assoc n es = Some x /\ assign r v x = Ok x' /\ assoc n es' = Some x'.
Proof.
  intros H. cbn [assign] in H. destruct (assoc n es) as [x|] eqn:E; [|discriminate].
  destruct (assign r v x) as [x'|] eqn:Ea; cbn [bind] in H; [|discriminate]. injection H as <-.
  exists (dict_set n x' es), x, x'. split; [reflexivity|]. split.
  - pose proof (dict_set_names n x' (fun _ => tt) es) as Hd. rewrite E in Hd. specialize (Hd eq_refl). apply (f_equal (map fst)) in Hd. rewrite !map_map in Hd. exact Hd.
  - split; [|split; [reflexivity|split; [exact Ea|]]].
    + intros m Hm. rewrite assoc_dict_set. destruct (String.eqb_spec m n); [contradiction|reflexivity].
    + rewrite assoc_dict_set, String.eqb_refl. reflexivity.
Qed.
Lemma assign_ok v p : forall t, at_path p t <> None -> exists t', assign p v t = Ok t'.
Proof.
  induction p as [|n r IH]; intros t H; [exists v; reflexivity|].
  destruct t as [| | | | | | | | | | | |c fs|es]; try (exfalso; apply H; reflexivity); cbn [at_path assign] in *.
  - destruct (assoc n fs) as [[s x]|]; [|congruence]. destruct (IH x H) as [x' ->]. cbn. eauto.
  - destruct (assoc n es) as [x|]; [|congruence]. destruct (IH x H) as [x' ->]. cbn. eauto.
Qed.

Lemma assign_sliced p : forall q t t', assign p (PInt 0) t = Ok t' -> (under p q -> sliced q t' = true) /\ (~ under p q -> sliced q t' = sliced q t).
Proof.
  induction p as [|n r IH]; intros q t t' H.
  - cbn in H. injection H as <-. split; [destruct q; reflexivity|]. intros Hn. exfalso. apply Hn. exists q. reflexivity.
  - destruct t as [| | | | | | | | | | | |c fs|es]; try (cbn in H; discriminate).
    + destruct (assign_obj _ _ _ _ _ _ H) as (fs' & s & x & x' & -> & Hd & Hm & Hx & Ha & Hx'). split.
      * intros (z & ->). cbn [app sliced]. rewrite Hx'. apply (IH (r ++ z) x x' Ha). exists z. reflexivity.
      * intros Hu. destruct q as [|m q]; [reflexivity|]. cbn [sliced]. destruct (string_dec m n) as [->|Hne]; [|rewrite Hm by exact Hne; reflexivity].
        rewrite Hx, Hx'. apply (IH q x x' Ha). intros (z & ->). apply Hu. exists z. reflexivity.
    + destruct (assign_dict _ _ _ _ _ H) as (es' & x & x' & -> & Hd & Hm & Hx & Ha & Hx'). split.
      * intros (z & ->). cbn [app sliced]. rewrite Hx'. apply (IH (r ++ z) x x' Ha). exists z. reflexivity.
      * intros Hu. destruct q as [|m q]; [reflexivity|]. cbn [sliced]. destruct (string_dec m n) as [->|Hne]; [|rewrite Hm by exact Hne; reflexivity].
        rewrite Hx, Hx'. apply (IH q x x' Ha). intros (z & ->). apply Hu. exists z. reflexivity.
Qed.
Lemma assign_agree p : forall q t t' d, assign p (PInt 0) t = Ok t' -> agree q t d -> agree q t' d.
Proof.
  induction p as [|n r IH]; intros q t t' d H Hg.
  - cbn in H. injection H as <-. destruct q; exact I.
  - destruct t as [| | | | | | | | | | | |c fs|es]; try (cbn in H; discriminate).
    + destruct (assign_obj _ _ _ _ _ _ H) as (fs' & s & x & x' & -> & Hd & Hm & Hx & Ha & Hx').
      destruct q as [|m q]; cbn [agree] in *; destruct Hg as [Hk Hg]; (split; [exact Hk|]); [exact I|].
      destruct (string_dec m n) as [->|Hne].
      * rewrite Hx in Hg. rewrite Hx'. intros d' Hd'. apply (IH q x x' d' Ha). apply Hg. exact Hd'.
      * rewrite Hm by exact Hne. exact Hg.
    + destruct (assign_dict _ _ _ _ _ H) as (es' & x & x' & -> & Hd & Hm & Hx & Ha & Hx').
      destruct q as [|m q]; cbn [agree] in *; destruct Hg as [Hk Hg]; (split; [exact Hk|]); [exact I|].
      destruct (string_dec m n) as [->|Hne].
      * rewrite Hx in Hg. rewrite Hx'. intros d' Hd'. apply (IH q x x' d' Ha). apply Hg. exact Hd'.
      * rewrite Hm by exact Hne. exact Hg.
Qed.
Lemma under_dec p : forall q, {under p q} + {~ under p q}.
Proof.
  induction p as [|n r IH]; intros q; [left; exists q; reflexivity|]. destruct q as [|m q]; [right; intros (z & E); discriminate|].
  destruct (string_dec m n) as [->|Hn]; [|right; intros (z & E); injection E as E _; contradiction].
  destruct (IH q) as [H|H]; [left; destruct H as (z & ->); exists z; reflexivity|right; intros (z & E); injection E as E; apply H; exists z; exact E].
Qed.
Lemma set_axes_facts paths : forall t t' d, set_axes paths t = Ok t' -> forall q,
  (agree q t d -> agree q t' d) /\
  ((exists p, In p paths /\ under p q) -> sliced q t' = true) /\
  ((forall p, In p paths -> ~ under p q) -> sliced q t' = sliced q t).
Proof.
  induction paths as [|p r IH]; intros t t' d H q; cbn [set_axes] in H.
  - injection H as <-. split; [tauto|]. split; [intros (p & [] & _)|reflexivity].
  - destruct (assign p (PInt 0) t) as [t1|] eqn:E; cbn [bind] in H; [|discriminate].
    destruct (IH t1 t' d H q) as (I1 & I2 & I3). destruct (assign_sliced p q t t1 E) as [S1 S2]. split; [|split].
    + intros Hg. apply I1. exact (assign_agree p q t t1 d E Hg).
    + intros (p' & [<-|Hin] & Hu).
      * assert (Hdec : (exists p', In p' r /\ under p' q) \/ (forall p', In p' r -> ~ under p' q)).
        { clear -r. induction r as [|a r IH]; [right; intros p' []|]. destruct (under_dec a q) as [Ha|Ha]; [left; exists a; split; [left; reflexivity|exact Ha]|].
          destruct IH as [(b & Hb & Hu)|Hno]; [left; exists b; split; [right; exact Hb|exact Hu]|]. right. intros b [<-|Hb]; [exact Ha|exact (Hno b Hb)]. }
        destruct Hdec as [Hd|Hd]; [exact (I2 Hd)|]. rewrite (I3 Hd). exact (S1 Hu).
      * apply I2. exists p'. split; assumption.
    + intros Hno. rewrite I3 by (intros p' Hp; apply Hno; right; exact Hp). apply S2. apply Hno. left. reflexivity.
Qed.
