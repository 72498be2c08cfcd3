(** mjinx/problem.py: problems over a heap of shared component objects.

    Python objects are shared by reference, so a problem stores component ids and
    the world holds the components.  A world also holds all problems, so that
    histories may interleave operations on several of them. *)
From Verif Require Import Base Lin Mjx Typing Component.
Open Scope R_scope.
Open Scope nat_scope.

(** problem.py:17-33 *)
Record jdata := mkJD { jd_model : mjmodel; jd_vmin : list R; jd_vmax : list R; jd_comps : list (string * jaxc) }.

(** problem.py:48-52; [p_comps] is the dict, in insertion order. *)
Record prob := mkP { p_model : mjmodel; p_vmin : list R; p_vmax : list R; p_comps : list (string * nat) }.

Record world := mkW { w_comps : list comp; w_probs : list prob }.

Fixpoint replace_nth {A} (i : nat) (x : A) (l : list A) : list A :=
  match i, l with
  | _, [] => []
  | O, _ :: r => x :: r
  | S i', y :: r => y :: replace_nth i' x r
  end.

Definition set_comp (w : world) (i : nat) (c : comp) : world := mkW (replace_nth i c (w_comps w)) (w_probs w).
Definition set_prob (w : world) (i : nat) (p : prob) : world := mkW (w_comps w) (replace_nth i p (w_probs w)).

(** problem.py:79-88 and 115-124 (same code for both limits) *)
Definition limit_vector (m : mjmodel) (t : tensor) : res (list R) :=
  match ndim t with
  | 0 => do x <- scalar_of t; Ok (vconst (m_nv m) x)
  | 1 => match t_shape t with
         | [n] => if Nat.eqb n (m_nv m) then Ok (t_data t) else Err ValueError
         | _ => Err ValueError
         end
  | _ => Err ValueError
  end.

(** problem.py:48-52 *)
Definition new_problem (m : mjmodel) (vmin vmax : tensor) : res prob :=
  do lo <- limit_vector m vmin; do hi <- limit_vector m vmax; Ok (mkP m lo hi []).
(** Defaults of problem.py:48. *)
Definition default_vmin : tensor := tscalar (-1000).
Definition default_vmax : tensor := tscalar 1000.

(** problem.py:72-88 *)
Definition update_v_min (t : tensor) (p : prob) : res prob :=
  do v <- limit_vector (p_model p) t; Ok (mkP (p_model p) v (p_vmax p) (p_comps p)).
(** problem.py:108-124 *)
Definition update_v_max (t : tensor) (p : prob) : res prob :=
  do v <- limit_vector (p_model p) t; Ok (mkP (p_model p) (p_vmin p) v (p_comps p)).

Definition has_name (n : string) (p : prob) : bool := existsb (fun e => String.eqb n (fst e)) (p_comps p).
Fixpoint assoc {A} (n : string) (l : list (string * A)) : option A :=
  match l with [] => None | (k, v) :: r => if String.eqb n k then Some v else assoc n r end.

(** Outcome of an operation. *)
Inductive out := ODone | ORef (id : nat) | OData (d : jdata).

Definition unit_out {A} (r : res A) (o : out) : res out := match r with Ok _ => Ok o | Err e => Err e end.

(** problem.py:126-136 *)
Definition add_component (pi ci : nat) (w : world) : res out * world :=
  match nth_error (w_probs w) pi, nth_error (w_comps w) ci with
  | Some p, Some c =>
      if has_name (a_name (c_at c)) p then (Err ValueError, w)
      else match update_model (p_model p) c with
           | (Err e, c') => (Err e, set_comp w ci c')
           | (Ok _, c') =>
               (Ok ODone, set_prob (set_comp w ci c') pi
                 (mkP (p_model p) (p_vmin p) (p_vmax p) (p_comps p ++ [(a_name (c_at c'), ci)])))
           end
  | _, _ => (Err TypeError, w)         (* no such Python object *)
  end.

(** problem.py:138-145 *)
Definition remove_name (n : string) (l : list (string * nat)) : list (string * nat) :=
  filter (fun e => negb (String.eqb n (fst e))) l.
Definition remove_component (pi : nat) (n : string) (w : world) : res out * world :=
  match nth_error (w_probs w) pi with
  | Some p => if has_name n p
              then (Ok ODone, set_prob w pi (mkP (p_model p) (p_vmin p) (p_vmax p) (remove_name n (p_comps p))))
              else (Ok ODone, w)
  | None => (Err TypeError, w)
  end.

(** problem.py:147-156: the dict comprehension reads [jax_component] of each
    component in order; reads may cache inside the components. *)
Fixpoint compile_all (l : list (string * nat)) (cs : list comp) : res (list (string * jaxc)) * list comp :=
  match l with
  | [] => (Ok [], cs)
  | (n, i) :: r =>
      match nth_error cs i with
      | None => (Err TypeError, cs)
      | Some c =>
          match jax_component c with
          | (Err e, c') => (Err e, replace_nth i c' cs)
          | (Ok j, c') =>
              match compile_all r (replace_nth i c' cs) with
              | (Ok js, cs') => (Ok ((n, j) :: js), cs')
              | (Err e, cs') => (Err e, cs')
              end
          end
      end
  end.
Definition compile (pi : nat) (w : world) : res out * world :=
  match nth_error (w_probs w) pi with
  | Some p =>
      match compile_all (p_comps p) (w_comps w) with
      | (Ok js, cs) => (Ok (OData (mkJD (p_model p) (p_vmin p) (p_vmax p) js)), mkW cs (w_probs w))
      | (Err e, cs) => (Err e, mkW cs (w_probs w))
      end
  | None => (Err TypeError, w)
  end.

Definition is_task (c : comp) : bool := match a_ext (c_at c) with XTask _ _ _ => true | _ => false end.
Definition is_barrier (c : comp) : bool := match a_ext (c_at c) with XBarrier _ _ => true | _ => false end.

(** problem.py:158-168, 170-182, 184-196 *)
Definition lookup (test : comp -> bool) (pi : nat) (n : string) (w : world) : res out * world :=
  match nth_error (w_probs w) pi with
  | Some p =>
      match assoc n (p_comps p) with
      | None => (Err ValueError, w)
      | Some i => match nth_error (w_comps w) i with
                  | Some c => if test c then (Ok (ORef i), w) else (Err ValueError, w)
                  | None => (Err TypeError, w)
                  end
      end
  | None => (Err TypeError, w)
  end.
Definition component := lookup (fun _ => true).
Definition task := lookup is_task.
Definition barrier := lookup is_barrier.

(** Any call a user program can make on problems and components. *)
Inductive wop :=
| WNewComp (c : comp)                      (* a freshly constructed component *)
| WNewProblem (m : mjmodel) (vmin vmax : tensor)
| WCop (ci : nat) (o : cop)
| WAdd (pi ci : nat)
| WRemove (pi : nat) (n : string)
| WVmin (pi : nat) (t : tensor)
| WVmax (pi : nat) (t : tensor)
| WCompile (pi : nat)
| WComponent (pi : nat) (n : string)
| WTask (pi : nat) (n : string)
| WBarrier (pi : nat) (n : string).

Definition step (o : wop) (w : world) : res out * world :=
  match o with
  | WNewComp c => (Ok (ORef (List.length (w_comps w))), mkW (w_comps w ++ [c]) (w_probs w))
  | WNewProblem m lo hi =>
      match new_problem m lo hi with
      | Ok p => (Ok (ORef (List.length (w_probs w))), mkW (w_comps w) (w_probs w ++ [p]))
      | Err e => (Err e, w)
      end
  | WCop ci o =>
      match nth_error (w_comps w) ci with
      | Some c => let '(r, c') := run_cop o c in (unit_out r ODone, set_comp w ci c')
      | None => (Err TypeError, w)
      end
  | WAdd pi ci => add_component pi ci w
  | WRemove pi n => remove_component pi n w
  | WVmin pi t =>
      match nth_error (w_probs w) pi with
      | Some p => match update_v_min t p with Ok p' => (Ok ODone, set_prob w pi p') | Err e => (Err e, w) end
      | None => (Err TypeError, w)
      end
  | WVmax pi t =>
      match nth_error (w_probs w) pi with
      | Some p => match update_v_max t p with Ok p' => (Ok ODone, set_prob w pi p') | Err e => (Err e, w) end
      | None => (Err TypeError, w)
      end
  | WCompile pi => compile pi w
  | WComponent pi n => component pi n w
  | WTask pi n => task pi n w
  | WBarrier pi n => barrier pi n w
  end.

Definition empty_world : world := mkW [] [].
Definition run (os : list wop) (w : world) : world := fold_left (fun w o => snd (step o w)) os w.
