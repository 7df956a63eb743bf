(** Model of the bars of [display_distances] (population.py:1304-1338): what [ax.hist]
    counts, with [np.histogram] on given edges. *)
From Verif Require Import Base Env SynthModel PlotModel.
Set Implicit Arguments.

Section Hist.
Variable E : env.
Notation V := (V E).

(** [a.searchsorted(e, "left")] and [a.searchsorted(e, "right")] of the sorted values:
    the number of values below [e], and up to [e]. *)
Definition left_of (xs : list V) (e : V) : nat := length (filter (fun x => vlt E x e) xs).
Definition up_to (xs : list V) (e : V) : nat := length (filter (fun x => vle E x e) xs).
(** [np.diff] *)
Fixpoint diff (l : list nat) : list nat :=
  match l with
  | a :: ((b :: _) as r) => (b - a) :: diff r
  | _ => nil
  end.
(** [not np.any(edges[:-1] > edges[1:])] *)
Fixpoint rising (l : list V) : bool :=
  match l with
  | a :: ((b :: _) as r) => (negb (vlt E b a) && rising r)%bool
  | _ => true
  end.
(** [np.histogram(xs, bins=edges)] for two or more edges: [ValueError] unless they
    increase; all but the last are searched from the left. *)
Definition histogram (xs edges : list V) : res (list nat) :=
  if rising edges then
    Ok (diff (map (left_of xs) (removelast edges) ++ [up_to xs (last edges (vofnat E 0))]))
  else Err ValueError.
(** The bars [ax.hist(x, bins=np.linspace(0, top, edges))] draws. *)
Definition bars (m : mark E) : res (list nat) :=
  match m with
  | Hist x top edges => histogram x (linspace E (vofnat E 0) top edges)
  | _ => Err Unmodelled
  end.
End Hist.
Arguments left_of {E}. Arguments up_to {E}. Arguments rising {E}. Arguments histogram {E}. Arguments bars {E}.
