(** Vocabulary for compiled components as immutable objects and for vmap templates. *)
From Verif Require Import Base Lin Mjx Typing Component Problem JaxTree.
Open Scope nat_scope.

(** [obj.n] *)
Definition attr (o : py) (n : string) : option py :=
  match o with PObj _ fs => option_map snd (assoc n fs) | _ => None end.
Definition class_of (o : py) : option string := match o with PObj c _ => Some c | _ => None end.
(** The declaration of an object: its field names with their static marks. *)
Definition declared (o : py) : list (string * bool) :=
  match o with PObj _ fs => map (fun f => (fst f, fst (snd f))) fs | _ => [] end.
Definition has_field (o : py) (n : string) : Prop := In n (map fst (declared o)).

(** [x = x.copy_and_set( **kw)] for each [kw] in turn. *)
Fixpoint updates (kws : list (list (string * py))) (i : nat) (h : list py) : res nat * list py :=
  match kws with
  | [] => (Ok i, h)
  | kw :: r => match copy_and_set i kw h with
               | (Ok i', h') => updates r i' h'
               | (Err e, h') => (Err e, h')
               end
  end.
(** "the last of these updates that names [n] gave it [v]" *)
Definition last_write (kws : list (list (string * py))) (n : string) (v : py) : Prop :=
  exists before kw after, kws = before ++ kw :: after /\ In (n, v) kw /\ (forall kw', In kw' after -> ~ In n (map fst kw')).
Definition never_written (kws : list (list (string * py))) (n : string) : Prop :=
  forall kw, In kw kws -> ~ In n (map fst kw).
(** Keyword arguments have distinct names. *)
Definition kwargs (kw : list (string * py)) : Prop := NoDup (map fst kw).

(** The field of each kind of component that holds its target. *)
Definition with_target (j : jaxc) (t : tensor) : option (string * py * jaxc) :=
  match j_ext j with
  | JTask W lm k =>
      let put k' := mkJ (j_dim j) (j_model j) (j_gain j) (j_gain_fn j) (j_mask_idxs j) (JTask W lm k') in
      match k with
      | JTCom _ => Some ("target_com"%string, PArr t, put (JTCom t))
      | JTPos a b _ => Some ("target_pos"%string, PArr t, put (JTPos a b t))
      | JTFrame a b _ => Some ("target_frame"%string, PObj "SE3" [dyn "wxyz_xyz" (PArr t)], put (JTFrame a b t))
      | JTJoint _ q => Some ("target_q"%string, PArr t, put (JTJoint t q))
      | JTCustom _ => None
      end
  | _ => None
  end.
(** ** Paths: [data.components["a"].vector_gain] is
    [at_path ["components"; "a"; "vector_gain"] data]. *)
Fixpoint at_path (path : list string) (p : py) : option py :=
  match path with
  | [] => Some p
  | n :: r => match p with
              | PObj _ fs => match assoc n fs with Some (_, v) => at_path r v | None => None end
              | PDict es => match assoc n es with Some v => at_path r v | None => None end
              | _ => None
              end
  end.
(** No field on the path is static: the place is part of the pytree. *)
Fixpoint in_tree (path : list string) (p : py) : Prop :=
  match path with
  | [] => True
  | n :: r => match p with
              | PObj _ fs => match assoc n fs with Some (s, v) => s = false /\ in_tree r v | None => False end
              | PDict es => match assoc n es with Some v => in_tree r v | None => False end
              | _ => False
              end
  end.
Definition is_leaf (p : py) : Prop := match p with PObj _ _ | PDict _ => False | _ => True end.
(** Same kind of node: same class with the same declarations, dictionaries with
    the same keys. *)
Definition same_node (a b : py) : Prop :=
  match a, b with
  | PObj c fs, PObj c' gs => c = c' /\ declared a = declared b
  | PDict es, PDict fs => Permutation (map fst es) (map fst fs)
  | _, _ => False
  end.

(** ** What [jax.vmap(f, in_axes=template)] hands to [f] for sample [k]: below a
    None the value itself, below an axis number the slice of every leaf.  [slice] is
    the array library's slicing of one leaf. *)
Fixpoint each_leaf (f : py -> py) (p : py) : py :=
  match p with
  | PObj c fs => PObj c (map (fun g : string * (bool * py) => (fst g, (fst (snd g), if fst (snd g) then snd (snd g) else each_leaf f (snd (snd g))))) fs)
  | PDict es => PDict (map (fun e : string * py => (fst e, each_leaf f (snd e))) es)
  | _ => f p
  end.
Fixpoint sample (slice : py -> py) (t d : py) : py :=
  match t with
  | PNone => d
  | PObj _ ts => match d with
      | PObj c fs => PObj c (map (fun g : string * (bool * py) => (fst g, (fst (snd g),
            if fst (snd g) then snd (snd g) else match assoc (fst g) ts with Some (_, t') => sample slice t' (snd (snd g)) | None => snd (snd g) end))) fs)
      | _ => d end
  | PDict ts => match d with
      | PDict es => PDict (map (fun e : string * py => (fst e, match assoc (fst e) ts with Some t' => sample slice t' (snd e) | None => snd e end)) es)
      | _ => d end
  | _ => each_leaf slice d
  end.
(** Assignments of axis 0 at several places, in order. *)
Fixpoint set_axes (paths : list (list string)) (t : py) : res py :=
  match paths with [] => Ok t | p :: r => do t' <- assign p (PInt 0) t; set_axes r t' end.
Definition under (p q : list string) : Prop := exists r, q = p ++ r.
