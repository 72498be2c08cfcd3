(** Grouping of geom pairs and bookkeeping of contacts. *)
From Verif Require Import Base Lin LinFacts Mjx Rot FrameJac Collide SpecCollision SpecTree SpecShape SpecContact FrameFacts CollisionPairs QPFacts.
Open Scope R_scope.
Open Scope Z_scope.

Lemma fkey_eqb_eq a b : fkey_eqb a b = true <-> a = b.
Proof.
  destruct a as [[a1 a2] [a3 a4] a5], b as [[b1 b2] [b3 b4] b5]. unfold fkey_eqb. cbn. rewrite !andb_true_iff, !Z.eqb_eq. split.
  - intros ((((-> & ->) & ->) & ->) & ->). reflexivity.
  - intros [= -> -> -> -> ->]. auto.
Qed.
Lemma fkey_eq_dec (a b : fkey) : {a = b} + {a <> b}.
Proof. repeat decide equality. Qed.

Section Keys.
Context (m : mjmodel) (Hm : wf_geoms m).
Definition key_of (p : Z * Z) : fkey :=
  mkK (ent (m_geom_type m) (fst p), ent (m_geom_type m) (snd p)) (ent (m_geom_dataid m) (fst p), ent (m_geom_dataid m) (snd p)) (contact_dim m p).
Lemma key_of_sort p q : key_of p = key_of q <-> same_sort m p q.
Proof.
  unfold key_of, same_sort. split.
  - intros E. injection E as E1 E2 E3 E4 E5. auto.
  - intros (-> & -> & -> & -> & ->). reflexivity.
Qed.
Lemma key_describes_iff k p : key_describes m k p <-> k = key_of p.
Proof. unfold key_describes, key_of. destruct k as [t dd c]. cbn. split; [intros (-> & -> & ->)|intros [= -> -> ->]]; auto. Qed.
Lemma orient_pair p : geom_pair m p -> geom_pair m (orient m p).
Proof. unfold geom_pair, orient. intros [A B]. destruct (_ <? _); cbn; auto. Qed.
Lemma ordered_pair_ok p : geom_pair m p -> ordered_pair m p = Ok (orient m p).
Proof.
  destruct Hm as (T & _). intros [A B]. unfold ordered_pair, orient, is_geom in *. rewrite !np_idx_in by (rewrite T; assumption). cbn [bind]. reflexivity.
Qed.
Lemma pair_key_ok p : geom_pair m p -> pair_key m p = Ok (key_of p).
Proof.
  destruct Hm as (T & D & P & C). destruct p as [g1 g2]. intros [A B]. unfold is_geom in *. cbn [fst snd] in *. unfold pair_key, key_of, contact_dim. cbn [fst snd].
  rewrite (np_idx_in (m_geom_type m) g1), (np_idx_in (m_geom_type m) g2) by (rewrite T; assumption).
  rewrite (np_idx_in (m_geom_dataid m) g1), (np_idx_in (m_geom_dataid m) g2) by (rewrite D; assumption).
  rewrite (np_idx_in (m_geom_priority m) g1), (np_idx_in (m_geom_priority m) g2) by (rewrite P; assumption).
  rewrite (np_idx_in (m_geom_condim m) g1), (np_idx_in (m_geom_condim m) g2) by (rewrite C; assumption). cbn [bind].
  set (p1 := ent (m_geom_priority m) g1). set (p2 := ent (m_geom_priority m) g2).
  f_equal. f_equal. destruct (Z.compare_spec p1 p2).
  - rewrite (proj2 (Z.ltb_ge p2 p1)), (proj2 (Z.ltb_ge p1 p2)) by lia. reflexivity.
  - rewrite (proj2 (Z.ltb_ge p2 p1)), (proj2 (Z.ltb_lt p1 p2)) by lia. reflexivity.
  - rewrite (proj2 (Z.ltb_lt p2 p1)) by lia. reflexivity.
Qed.
Definition groups_of (ps : list (Z * Z)) (d : list (fkey * list (Z * Z))) : list (fkey * list (Z * Z)) :=
  fold_left (fun d p => dict_append fkey_eqb (key_of p) p d) ps d.
Lemma geom_groups_from_ok ps : Forall (geom_pair m) ps -> forall d, geom_groups_from m ps d = Ok (groups_of (map (orient m) ps) d).
Proof.
  induction 1 as [|p ps Hp _ IH]; intros d; [reflexivity|]. cbn [geom_groups_from map]. rewrite (ordered_pair_ok p Hp). cbn [bind]. rewrite (pair_key_ok _ (orient_pair _ Hp)). cbn [bind]. apply IH.
Qed.
End Keys.

(** ** Dictionaries of lists *)
Section Dict.
Context {K A : Type} (eqb : K -> K -> bool) (Heq : forall a b, eqb a b = true <-> a = b).
Fixpoint get (k : K) (d : list (K * list A)) : list A :=
  match d with [] => [] | (k', l) :: r => if eqb k k' then l else get k r end.
Lemma eqb_refl k : eqb k k = true. Proof. now apply Heq. Qed.
Lemma append_keys k x (d : list (K * list A)) : map fst (dict_append eqb k x d) = map fst d /\ In k (map fst d) \/ map fst (dict_append eqb k x d) = map fst d ++ [k] /\ ~ In k (map fst d).
Proof.
  induction d as [|[k' l] d IH]; cbn; [right; auto|]. destruct (eqb k k') eqn:E; cbn.
  - apply Heq in E. left. auto.
  - destruct IH as [[-> H]|[-> H]]; [left; auto|right]. split; [reflexivity|]. intros [C|C]; [|auto]. subst. rewrite eqb_refl in E. discriminate.
Qed.
Lemma append_nodup k x (d : list (K * list A)) : NoDup (map fst d) -> NoDup (map fst (dict_append eqb k x d)).
Proof.
  intros H. destruct (append_keys k x d) as [[-> _]|[-> N]]; [exact H|]. apply (Permutation_NoDup (l := k :: map fst d)); [apply Permutation_cons_append|]. now constructor.
Qed.
Lemma get_append k x (d : list (K * list A)) k0 : get k0 (dict_append eqb k x d) = if eqb k0 k then get k0 d ++ [x] else get k0 d.
Proof.
  induction d as [|[k' l] d IH]; cbn.
  - destruct (eqb k0 k); reflexivity.
  - destruct (eqb k k') eqn:E; cbn.
    + apply Heq in E. subst k'. destruct (eqb k0 k); reflexivity.
    + destruct (eqb k0 k') eqn:E'.
      * destruct (eqb k0 k) eqn:E0; [|reflexivity]. apply Heq in E', E0. subst. rewrite eqb_refl in E. discriminate.
      * exact IH.
Qed.
Lemma get_in k l d : NoDup (map fst d) -> In (k, l) d -> get k d = l.
Proof.
  induction d as [|[k' l'] d IH]; cbn; intros N H; [destruct H|]. inversion N as [|? ? N1 N2]; subst. destruct H as [[= -> ->]|H].
  - now rewrite eqb_refl.
  - destruct (eqb k k') eqn:E; [|auto]. apply Heq in E. subst. exfalso. apply N1. change k' with (fst (k', l)). now apply in_map.
Qed.
Lemma append_all k x (d : list (K * list A)) : Permutation (List.concat (map snd (dict_append eqb k x d))) (x :: List.concat (map snd d)).
Proof.
  induction d as [|[k' l] d IH]; cbn; [apply Permutation_refl|]. destruct (eqb k k'); cbn.
  - rewrite <- app_assoc. cbn. apply Permutation_sym, Permutation_middle.
  - rewrite IH. apply Permutation_sym, Permutation_middle.
Qed.
Lemma append_nonempty k x (d : list (K * list A)) : Forall (fun g => snd g <> []) d -> Forall (fun g : K * list A => snd g <> []) (dict_append eqb k x d).
Proof.
  induction 1 as [|[k' l] d Hl H IH]; cbn; [constructor; [discriminate|constructor]|]. destruct (eqb k k'); constructor; auto. cbn. destruct l; discriminate.
Qed.

Context (key : A -> K).
Definition collect (l : list A) (d : list (K * list A)) := fold_left (fun d p => dict_append eqb (key p) p d) l d.
Lemma collect_nodup l : forall d, NoDup (map fst d) -> NoDup (map fst (collect l d)).
Proof. induction l as [|x l IH]; intros d H; [exact H|]. cbn. apply IH. now apply append_nodup. Qed.
Lemma collect_nonempty l : forall d, Forall (fun g => snd g <> []) d -> Forall (fun g : K * list A => snd g <> []) (collect l d).
Proof. induction l as [|x l IH]; intros d H; [exact H|]. cbn. apply IH. now apply append_nonempty. Qed.
Lemma collect_get l : forall d k, get k (collect l d) = get k d ++ filter (fun x => eqb k (key x)) l.
Proof.
  induction l as [|x l IH]; intros d k; cbn; [now rewrite app_nil_r|]. rewrite IH, get_append. destruct (eqb k (key x)); [now rewrite <- app_assoc|reflexivity].
Qed.
Lemma collect_all l : forall d, Permutation (List.concat (map snd (collect l d))) (l ++ List.concat (map snd d)).
Proof.
  induction l as [|x l IH]; intros d; [apply Permutation_refl|]. cbn. rewrite IH, append_all. apply Permutation_sym, Permutation_middle.
Qed.
Lemma collect_in l k g : In (k, g) (collect l []) -> g <> [] /\ g = filter (fun x => eqb k (key x)) l.
Proof.
  intros H. split.
  - pose proof (collect_nonempty l [] ltac:(constructor)) as F. rewrite Forall_forall in F. exact (F _ H).
  - rewrite <- (get_in k g _ (collect_nodup l [] ltac:(constructor)) H). apply (collect_get l []).
Qed.
End Dict.

Lemma picks_filter {A} (P : A -> Prop) f l : (forall x, f x = true <-> P x) -> picks P l (filter f l).
Proof.
  intros H. induction l as [|x l IH]; cbn; [constructor|]. destruct (f x) eqn:E; [constructor; auto; now apply H|]. constructor; [|exact IH]. intros C. apply H in C. congruence.
Qed.
Lemma picks_ext {A} (P Q : A -> Prop) l r : (forall x, P x <-> Q x) -> picks P l r -> picks Q l r.
Proof. intros H. induction 1; constructor; firstorder. Qed.

(** geom_groups partitions the oriented pairs by sort, in order. *)
Lemma grouping m ps : wf_geoms m -> Forall (geom_pair m) ps ->
  exists gs, geom_groups m ps = Ok gs /\
    Permutation (List.concat (map snd gs)) (map (orient m) ps) /\
    (forall k g, In (k, g) gs -> g <> [] /\ forall p, In p g -> key_describes m k p /\ picks (same_sort m p) (map (orient m) ps) g).
Proof.
  intros Hm Hp. exists (groups_of m (map (orient m) ps) []). split; [apply geom_groups_from_ok; assumption|].
  change (groups_of m (map (orient m) ps) []) with (collect fkey_eqb (key_of m) (map (orient m) ps) []).
  split.
  - rewrite (collect_all fkey_eqb (key_of m)). cbn. now rewrite app_nil_r.
  - intros k g H. apply (collect_in _ fkey_eqb_eq) in H. destruct H as [Hne ->]. split; [exact Hne|]. intros p Hin. apply filter_In in Hin. destruct Hin as [Hin Hk].
    apply fkey_eqb_eq in Hk. split; [now apply key_describes_iff|]. eapply picks_ext; [|apply (picks_filter (fun x => k = key_of m x)); intros x; apply fkey_eqb_eq].
    intros x. subst k. apply key_of_sort.
Qed.
