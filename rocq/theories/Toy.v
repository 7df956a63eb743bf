(** A concrete environment over the integers, used only to exhibit concrete cases
    and counterexamples. *)
From Verif Require Import Base Env.

Definition toy_unif (lo hi s : Z) : Z * Z :=
  ((if (lo <? hi)%Z then lo + s mod (hi - lo) else lo)%Z, (s + 1)%Z).

Definition toy : env := {|
  V := Z; vle := Z.leb; vlt := Z.ltb;
  vadd := Z.add; vsub := Z.sub; vmul := Z.mul; vdiv := Z.div; vmax2 := Z.max;
  vofnat := Z.of_nat;
  vlog10 := fun x => x; vln := fun x => x; vexp10 := fun x => x; vexp := fun x => x;
  vexpit := fun x => x; vacos := fun x => x; vtwopi := 6%Z; vrad2deg := fun x => x;
  vfinite := fun _ => true;
  gal_b := fun _ dec => dec;
  quad := fun f _ b => f b;
  Rst := Z; r_seed := fun z => z;
  r_unif := toy_unif;
  r_norm := fun m s g => ((m + s * (g mod 3 - 1))%Z, (g + 1)%Z);
  r_poisson := fun l g => ((if (l <? 0)%Z then Err ValueError else Ok (Z.to_nat l)), (g + 1)%Z);
  r_bern_ok := fun p => ((0 <=? p) && (p <=? 1))%Z;
  r_bern := fun p g => ((p =? 1)%Z && Z.even g, (g + 1)%Z);
  Nst := Z |}.
