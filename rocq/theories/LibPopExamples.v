(** Concrete predefined populations, over the integers. *)
From Verif Require Import Base BaseFacts Env ParamModel DistModel SynthModel SynthExamples LibPopModel LibPopSpec LibPopProofs Toy.
Open Scope string_scope.

Definition toy_formulas : formulas toy := @Formulas toy
  (fun _ _ vals r => match vals with l :: _ => Ok (l * r)%Z | nil => Err ValueError end)
  (fun _ l _ => l) (fun _ => None)
  (fun _ vals n g => (Ok (repeat (hd 0%Z vals) n), g)) (fun _ _ x => Ok x) (fun c => c).
(** Every argument has another value. *)
Definition some_args (k : string) : Z := Z.of_nat (String.length k) + (if String.eqb k "a" then 20 else if String.eqb k "beta" then 40 else 0).

Example all_accepted c k : In k (sd_nonneg (fst (documented c)) ++ lum_nonneg (snd (documented c)))%list -> vle toy (vofnat toy 0) (some_args k) = true.
Proof.
  intros _. unfold some_args. cbn [vle vofnat toy]. apply Z.leb_le. change (Z.of_nat 0) with 0%Z.
  destruct (String.eqb k "a"), (String.eqb k "beta"); lia.
Qed.
Example a_population : exists y,
  build toy_formulas objects P_BPLSFRPopulation some_args 17 None false = Ok y /\
  truth (sd_par (y_sp y)) = [("r0", 2); ("a", 21); ("rise", 4); ("decay", 5); ("peak", 4); ("r_max", 5)]%Z /\
  option_map (fun l => truth (ld_par l)) (y_lum y) = Some [("Lmin", 4); ("alpha", 5); ("Lbreak", 6); ("beta", 44); ("Lmax", 4)]%Z /\
  m_rate (y_spm y) = Some false /\ y_seed y = 17%Z.
Proof. eexists. split; [reflexivity|]. repeat split. Qed.
Example a_refusal : build toy_formulas objects P_BPLSFRPopulation (fun k => if String.eqb k "Lbreak" then (-1)%Z else some_args k) 17 None false = Err RuntimeError.
Proof. reflexivity. Qed.
