(** The caller's own lists and arrays.

    Python passes objects by reference, so a caller may change a list or array in place
    after having passed it.  Every numeric argument is copied by [jnp.array] when it is
    passed (_base.py:145,234; problem.py:79,115; tasks/_base.py:137;
    constraints/_base.py:100; _com_task.py:158; _obj_position_task.py:121;
    _obj_frame_task.py:160; _joint_task.py:197; _joint_barrier.py:120-121,160,197;
    _obj_position_barrier.py:197,234,249).  Three arguments are stored as they are and read
    again whenever the component is bound to a model: the [mask] of a JointTask
    (_joint_task.py:111), the [mask] of a JointBarrier (_joint_barrier.py:122), and
    [collision_bodies] and [excluded_collisions] of a SelfCollisionBarrier
    (_self_collision_barrier.py:159-161).

    Simplifications: SE3 objects and mjx models are taken to be immutable, as their classes
    declare them; a caller's object keeps its kind (a list of integers stays one). *)
From Verif Require Import Base Lin Mjx Typing Component Problem.
Open Scope nat_scope.

(** An object of the caller that can be changed in place. *)
Inductive pyobj := PArr (t : tensor) | PMask (l : list Z) | PBodies (l : list cbody) | PPairs (l : list (cbody * cbody)).
Definition memory := list pyobj.

(** The caller's objects that a component holds by reference. *)
Record kept := mkK { k_mask : option nat; k_bodies : option nat; k_excl : option nat }.
Definition nothing_kept : kept := mkK None None None.

Record scene := mkS { s_mem : memory; s_world : world; s_kept : list kept }.

(** The attribute that holds the object shows its present contents.  The object is not an
    attribute assignment, so [__setattr__] (_base.py:161-171) does not run and the modified
    flag stays as it is. *)
Definition show_ext (o : pyobj) (e : ext) : ext :=
  match o, e with
  | PMask l, XTask c lm (TJoint j) => XTask c lm (TJoint (mkJT (Some l) (jt_target j) (jt_qidx j)))
  | PMask l, XBarrier s (BJoint j) => XBarrier s (BJoint (mkJB (Some l) (jb_qmin j) (jb_qmax j) (jb_qidx j)))
  | PBodies l, XBarrier s (BSelf k) => XBarrier s (BSelf (mkSC (sc_dmin k) l (sc_excl_raw k) (sc_excl k) (sc_pairs k) (sc_n k)))
  | PPairs l, XBarrier s (BSelf k) => XBarrier s (BSelf (mkSC (sc_dmin k) (sc_bodies k) l (sc_excl k) (sc_pairs k) (sc_n k)))
  | _, _ => e
  end.
Definition show (o : pyobj) (c : comp) : comp := mkC (set_a_ext (c_at c) (show_ext o (a_ext (c_at c)))) (c_modified c) (c_cache c).
Definition is_ref (r : nat) (x : option nat) : bool := match x with Some n => Nat.eqb n r | None => false end.
Definition keeps (r : nat) (o : pyobj) (k : kept) : bool :=
  match o with PArr _ => false | PMask _ => is_ref r (k_mask k) | PBodies _ => is_ref r (k_bodies k) | PPairs _ => is_ref r (k_excl k) end.
Fixpoint show_all (r : nat) (o : pyobj) (ks : list kept) (cs : list comp) : list comp :=
  match ks, cs with
  | k :: ks', c :: cs' => (if keeps r o k then show o c else c) :: show_all r o ks' cs'
  | _, _ => cs
  end.
Definition same_kind (o o' : pyobj) : bool :=
  match o, o' with PArr _, PArr _ | PMask _, PMask _ | PBodies _, PBodies _ | PPairs _, PPairs _ => true | _, _ => false end.

(** A mask, body list or pair list argument: the caller's object, or absent. *)
Definition mask_arg (h : memory) (r : option nat) : res (option (list Z)) :=
  match r with None => Ok None | Some i => match nth_error h i with Some (PMask l) => Ok (Some l) | _ => Err TypeError end end.
Definition bodies_arg (h : memory) (r : option nat) : res (list cbody) :=
  match r with None => Ok [] | Some i => match nth_error h i with Some (PBodies l) => Ok l | _ => Err TypeError end end.
Definition pairs_arg (h : memory) (r : option nat) : res (list (cbody * cbody)) :=
  match r with None => Ok [] | Some i => match nth_error h i with Some (PPairs l) => Ok l | _ => Err TypeError end end.

(** What a user program does: create an object, change one in place, call the API with
    arguments computed from what its objects hold at that time, or construct one of the
    components that hold an object by reference. *)
Inductive act :=
| AObj (o : pyobj)
| AWrite (r : nat) (o : pyobj)
| ACall (f : memory -> wop)
| AJointTask (name : string) (cost gain : memory -> tensor) (gain_fn : option (R -> R)) (lm : R) (mask : option nat)
| AJointBarrier (name : string) (gain : memory -> tensor) (gain_fn : option (R -> R)) (sdg : R) (q_min q_max : memory -> option tensor) (mask : option nat)
| ASelfCollision (name : string) (gain : memory -> tensor) (gain_fn : option (R -> R)) (sdg d_min : R) (bodies excl : option nat) (n : Z).

(** The component an action constructs from the contents [h], and the objects it keeps:
    _joint_task.py:101-112, _joint_barrier.py:109-122, _self_collision_barrier.py:148-164. *)
Definition construct (a : act) (h : memory) : option (res comp * kept) :=
  match a with
  | AJointTask name cost gain gf lm mk =>
      Some (do l <- mask_arg h mk; new_joint_task name (cost h) (gain h) gf lm l, mkK mk None None)
  | AJointBarrier name gain gf sdg lo hi mk =>
      Some (do l <- mask_arg h mk; new_joint_barrier name (gain h) gf sdg (lo h) (hi h) l, mkK mk None None)
  | ASelfCollision name gain gf sdg dm bs ex n =>
      Some (do l <- bodies_arg h bs; do p <- pairs_arg h ex; new_self_collision name (gain h) gf sdg dm l p n, mkK None bs ex)
  | _ => None
  end.

(** _self_collision_barrier.py:271-272: if the list is empty at binding, the attribute is
    re-assigned to a new list and the caller's list is let go.  Simplification: an
    assignment of the same contents is not noticed (a model always has a world body, so
    the new list differs from the empty one). *)
Definition body_list (c : comp) : option (list cbody) :=
  match a_ext (c_at c) with XBarrier _ (BSelf k) => Some (sc_bodies k) | _ => None end.
Definition let_go (c c' : comp) (k : kept) : kept :=
  match body_list c, body_list c' with
  | Some [], Some [] => k
  | Some [], _ => mkK (k_mask k) None (k_excl k)
  | _, _ => k
  end.
Fixpoint let_go_all (cs cs' : list comp) (ks : list kept) : list kept :=
  match cs, cs', ks with
  | c :: r, c' :: r', k :: l => let_go c c' k :: let_go_all r r' l
  | [], c' :: r', _ => [nothing_kept]
  | _, _, _ => ks
  end.

Definition act_step (a : act) (s : scene) : res out * scene :=
  match a with
  | AObj o => (Ok (ORef (List.length (s_mem s))), mkS (s_mem s ++ [o]) (s_world s) (s_kept s))
  | AWrite r o =>
      match nth_error (s_mem s) r with
      | Some o0 => if same_kind o0 o
                   then (Ok ODone, mkS (replace_nth r o (s_mem s)) (mkW (show_all r o (s_kept s) (w_comps (s_world s))) (w_probs (s_world s))) (s_kept s))
                   else (Err TypeError, s)
      | None => (Err TypeError, s)
      end
  | ACall f =>
      let '(r, w) := step (f (s_mem s)) (s_world s) in
      (r, mkS (s_mem s) w (let_go_all (w_comps (s_world s)) (w_comps w) (s_kept s)))
  | _ =>
      match construct a (s_mem s) with
      | Some (Ok c, k) => (Ok (ORef (List.length (w_comps (s_world s)))), mkS (s_mem s) (mkW (w_comps (s_world s) ++ [c]) (w_probs (s_world s))) (s_kept s ++ [k]))
      | Some (Err e, _) => (Err e, s)
      | None => (Err TypeError, s)
      end
  end.
Definition empty_scene : scene := mkS [] empty_world [].
Definition act_run (l : list act) (s : scene) : scene := fold_left (fun s a => snd (act_step a s)) l s.
