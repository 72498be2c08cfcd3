(** mjinx/model.py: the module and its class, as far as they can be used. *)
From Verif Require Import Base Lin.
Open Scope nat_scope.

(** model.py:1-17, 150: executing the module evaluates the annotations and defaults of
    the methods, so every [mj.x] in them is looked up in the mujoco module; the result
    is the list of methods of the class. *)
Definition looked_up : list string := ["Model"; "mjtObj"]%string.
Definition methods_defined : list string :=
  ["__inin__"; "_fix_jnts"; "_parse_closed_loop_kinematics"; "update"; "get_frame_jacobian_world_aligned"; "get_frame_jacobian_local";
   "get_transform_frame_to_world"; "get_transform"; "integrate"; "get_configuration_limit"; "geom_point_jacobian"]%string.
Definition import_module (mujoco_names : list string) : res (list string) :=
  if forallb (fun n => existsb (String.eqb n) mujoco_names) looked_up then Ok methods_defined else Err AttributeError.

(** An object: its model and data attributes, if any ([M] models, [D] data). *)
Record legacy (M D : Type) := mkL { l_model : option M; l_data : option D }.
Arguments mkL {M D}. Arguments l_model {M D}. Arguments l_data {M D}.
(** [Model(args)]: Python calls [__init__] of the class when there is one (here
    [with_init], model.py:20-33); object() itself takes no arguments. *)
Definition construct {M D A} (methods : list string) (args : list A) (with_init : list A -> res (legacy M D)) : res (legacy M D) :=
  if existsb (String.eqb "__init__") methods then with_init args
  else match args with [] => Ok (mkL None None) | _ => Err TypeError end.
(** model.py:41-54; [make] is mjx.make_data, [set_qpos] replaces qpos and [fwd] is
    com_pos or fwd_position. *)
Definition update {M D Q} (make : M -> D) (set_qpos : Q -> D -> D) (fwd_position com_pos : M -> D -> D) (o : legacy M D) (q : Q) : res D :=
  match l_model o with
  | None => Err AttributeError
  | Some m =>
      let data := set_qpos q (make m) in
      match l_data o with
      | None => Err AttributeError
      | Some d => let data := fwd_position m d in let data := com_pos m d in Ok data
      end
  end.
