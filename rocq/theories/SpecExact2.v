(** Vocabulary for the exact form of C27. *)
From Verif Require Import Base Lin Mjx Typing Component.

(** The same compiled task, tracking object number -1. *)
Definition loses_object (j : jaxc) : jaxc := mkJ (j_dim j) (j_model j) (j_gain j) (j_gain_fn j) (j_mask_idxs j)
  match j_ext j with
  | JTask W lm (JTPos _ ty t) => JTask W lm (JTPos (-1) ty t)
  | JTask W lm (JTFrame _ ty t) => JTask W lm (JTFrame (-1) ty t)
  | e => e
  end.
