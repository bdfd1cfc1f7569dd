(** C117: vocabulary of the statements. *)
From Coq Require Import List Arith.
From Verif Require Import Progress_Model.
Import ListNotations.

(** the calls made for model [i], in the order they were made *)
Definition own {F : Type} (i : nat) (l : list (msg F)) : list (msg F) := filter (fun x => g_model x =? i) l.
(** every call says which model it is about *)
Definition labelled {F : Type} (msgs : nat -> list (msg F)) : Prop := forall i x, In x (msgs i) -> g_model x = i.
