(** Vocabulary for what plots show (C81). *)
From Verif Require Import Base Env SimVarModel SimVarSpec PopModel PlotModel.
Set Implicit Arguments.
Open Scope list_scope.

Section S.
Variable E : env.
Notation V := (V E).

(** A plot method [m] adds [l] to whatever is on the figure, and returns [r]. *)
Definition draws {A} (m : M (list (mark E)) A) (r : res A) (l : list (mark E)) : Prop := forall s, m s = (r, s ++ l).
(** The values of the detected ([true]) or hidden ([false]) objects. *)
Definition of_objects (b : bool) (a : popargs E) (f : popargs E -> list V) : list V := keep b (f a) (pa_sel a).
(** Apply a function of three numbers to each object. *)
Definition each (f : V -> V -> V -> V) (x y z : list V) : list V :=
  map (fun o => f (fst (fst o)) (snd (fst o)) (snd o)) (combine (combine x y) z).
(** Cartesian coordinates of an object. *)
Definition cart_x (vsin vcos : V -> V) (r t f : V) : V := vmul E (vmul E r (vsin t)) (vcos f).
Definition cart_y (vsin vcos : V -> V) (r t f : V) : V := vmul E (vmul E r (vsin t)) (vsin f).
Definition cart_z (vcos : V -> V) (r t f : V) : V := vmul E r (vcos t).
(** The sphere of the detected (hidden) objects: nothing if there are none. *)
Definition sphere_of (vsin vcos : V -> V) (cmap : string) (tr : option (V -> V)) (b : bool) (a : popargs E) : list (mark E) :=
  let o := of_objects b a in
  let d := match tr with Some g => map g (o (@pa_dist E)) | None => o (@pa_dist E) end in
  if Nat.eqb (length (o (@pa_fobs E))) 0 then []
  else [Points cmap (each (cart_x vsin vcos) d (o (@pa_theta E)) (o (@pa_phi E)))
                    (each (cart_y vsin vcos) d (o (@pa_theta E)) (o (@pa_phi E)))
                    (each (cart_z vcos) d (o (@pa_theta E)) (o (@pa_phi E))) (o (@pa_fobs E))].
(** Comparisons that are those of a total order. *)
Record ordered : Prop := {
  or_refl : forall x, vle E x x = true;
  or_trans : forall x y z, vle E x y = true -> vle E y z = true -> vle E x z = true;
  or_total : forall x y, vle E x y = true \/ vle E y x = true;
  or_lt : forall x y, vlt E x y = negb (vle E y x) }.
End S.
Arguments each {E}. Arguments cart_x {E}. Arguments cart_y {E}. Arguments cart_z {E}. Arguments sphere_of {E}.
