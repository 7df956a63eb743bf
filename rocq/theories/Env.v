(** The interface of the modelled code to numbers, random generators and external
    libraries.  Everything here is an arbitrary function: a theorem that needs a
    law states it as a hypothesis.  So the theorems hold in particular for IEEE
    doubles (with NaN) and for any generator. *)
From Verif Require Import Base.
Set Implicit Arguments.

Record env := Env {
  V : Type;                          (* python/numpy floats *)
  vle : V -> V -> bool;              (* a <= b, also b >= a *)
  vlt : V -> V -> bool;              (* a < b, also b > a *)
  vadd : V -> V -> V;
  vsub : V -> V -> V;
  vmul : V -> V -> V;
  vdiv : V -> V -> V;
  vmax2 : V -> V -> V;               (* np.maximum *)
  vofnat : nat -> V;                 (* integer literals *)
  vlog10 : V -> V;
  vln : V -> V;
  vexp10 : V -> V;                   (* np.power(10, x) *)
  vexp : V -> V;
  vexpit : V -> V;                   (* scipy.special.expit *)
  vacos : V -> V;
  vtwopi : V;
  vrad2deg : V -> V;
  vfinite : V -> bool;               (* np.isfinite *)
  gal_b : V -> V -> V;               (* astropy: galactic latitude in degrees of (ra, dec) *)
  quad : (V -> res V) -> V -> V -> res V;   (* scipy.integrate.quad(f, a, b)[0] *)
  Rst : Type;                        (* state of numpy's global generator *)
  r_seed : Z -> Rst;                 (* np.random.seed *)
  r_unif : V -> V -> Rst -> V * Rst; (* np.random.uniform(low, high) *)
  r_norm : V -> V -> Rst -> V * Rst; (* np.random.normal(loc, scale) *)
  r_poisson : V -> Rst -> res nat * Rst;    (* np.random.poisson(lam) *)
  r_bern_ok : V -> bool;             (* scipy's domain check of bernoulli's p *)
  r_bern : V -> Rst -> bool * Rst;   (* one bernoulli draw *)
  Nst : Type                         (* state of numba's own generator *)
}.

(** A vectorised call [f(..., size=n)] of numpy's legacy generator is [n] scalar
    calls. *)
Fixpoint rdraws {S A : Type} (f : S -> A * S) (n : nat) (g : S) : list A * S :=
  match n with
  | O => (nil, g)
  | Datatypes.S n' => let (x, g1) := f g in
                      let (xs, g2) := rdraws f n' g1 in (x :: xs, g2)
  end.

(** One scalar call per element of [l]. *)
Fixpoint rmapdraws {S A B : Type} (f : B -> S -> A * S) (l : list B) (g : S) : list A * S :=
  match l with
  | nil => (nil, g)
  | b :: r => let (x, g1) := f b g in
              let (xs, g2) := rmapdraws f r g1 in (x :: xs, g2)
  end.

Section Spatial.
Variable E : env.

(** [SpatialContainer] (distribution.py:142-158): positions of the objects. *)
Record spvals := SpVals { sv_dist : list (V E); sv_theta : list (V E); sv_phi : list (V E) }.

(** [dec] and [ra] in degrees (distribution.py:152-158, 254-272). *)
Definition sv_dec (s : spvals) : list (V E) :=
  map (fun t => vsub E (vofnat E 90) (vrad2deg E t)) (sv_theta s).
Definition sv_ra (s : spvals) : list (V E) := map (vrad2deg E) (sv_phi s).
End Spatial.

Lemma rdraws_length S A (f : S -> A * S) n g : length (fst (rdraws f n g)) = n.
Proof.
  revert g; induction n as [|n IH]; intros g; cbn; [easy|].
  destruct (f g) as [x g1]. specialize (IH g1).
  destruct (rdraws f n g1). cbn in *. lia.
Qed.

Lemma rmapdraws_length S A B (f : B -> S -> A * S) l g : length (fst (rmapdraws f l g)) = length l.
Proof.
  revert g; induction l as [|b l IH]; intros g; cbn; [easy|].
  destruct (f b g) as [x g1]. specialize (IH g1).
  destruct (rmapdraws f l g1). cbn in *. lia.
Qed.
