(** Model of [list_available_distributions], [list_available_selection_functions] and
    [list_available_auxiliary_samplers] (utils/registry.py:10-28). *)
From Verif Require Import Base ClassModel.

(** [for k, v in registry.items(): print(k)]: the lines printed.  class_registry iterates
    over the names in the order in which they were first registered. *)
Fixpoint print_names (items : list (string * nat)) (printed : list string) : list string :=
  match items with
  | nil => printed
  | (k, _) :: r => print_names r (printed ++ [k])
  end.
Definition list_available (h : hier) (w : classes) : list string := print_names (cl_reg w h) nil.
