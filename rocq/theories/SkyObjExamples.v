(** A predefined population with the samplers of a sky sampler (C90). *)
From Coq Require Import Reals ZArith List String Lra Lia.
From Verif Require Import Base Env ParamModel SelModel DistModel DistSpec AuxModel AuxSpec AuxRunSpec PopModel SynthModel SynthSpec LibModel LibPopModel LibPopSpec LibPopProofs
  RealModel RealExamples AuxLibModel AuxLibSpec LumLibModel RunSpec RunExamples FlatExamples SkyObjModel SkyObjSpec SkyObjProofs.
From Verif Require RealSize Loaded.
Import ListNotations.
Open Scope R_scope.
Open Scope string_scope.

Notation sky0 := (sky_new mach tn0 nu0 (-4)).
Notation angle c k := (new_aux mach tn0 nu0 (-4) c "" false k).
Lemma sky_on (y : synth (real_env mach)) : w_auxs (y_w y) = [] -> length (w_sels (y_w y)) = 2%nat -> y_aux y = [] -> y_der y = None ->
  exists y1 y2, in_w (sky0 None None) y = (Ok (Sky (IsSampler 0) (IsSampler 1)), y1) /\ add_sky mach (Sky (IsSampler 0) (IsSampler 1)) y1 = (Ok tt, y2) /\
  y_aux y2 = [("ra", 0); ("dec", 1)]%nat /\ y_w y2 = y_w y1 /\ acyclic (y_w y2) /\ distinct_names y2 /\ SynthSpec.never_drawn (y_w y2).
Proof.
  destruct y as [w sp spm lum lumm seed nm nmd spc ax der fl fls ds dss ss gr]. destruct w as [sg ng se au cr]. cbn [y_w w_auxs w_sels y_aux y_der]. intros -> L -> ->.
  destruct se as [|s1 [|s2 [|s3 se]]]; try discriminate L. clear L. eexists _, _. split; [reflexivity|]. split; [reflexivity|]. split; [reflexivity|]. split; [reflexivity|].
  match goal with |- acyclic (y_w ?z) /\ _ => set (y2 := z) end.
  assert (A1 : forall j a, at_ (y_w y2) j a -> (j = 0%nat /\ a = angle RA 2%nat) \/ (j = 1%nat /\ a = angle Dec 3%nat)).
  { intros j a. unfold at_. cbn. destruct j as [|[|j]]; [intros [= <-]; auto|intros [= <-]; auto|]. destruct j; discriminate. }
  clearbody y2. split; [|split].
  - exists (fun _ => 0%nat). intros i j (a & k & A & I). destruct (A1 _ _ A) as [[_ ->]|[_ ->]]; destruct I.
  - split; [intros j b _ A; destruct (A1 _ _ A) as [[_ ->]|[_ ->]]; discriminate|]. intros i j b b' _ _ A A' Q.
    destruct (A1 _ _ A) as [[-> ->]|[-> ->]], (A1 _ _ A') as [[-> ->]|[-> ->]]; reflexivity || discriminate Q.
  - intros j (a & A & S). destruct (A1 _ _ A) as [[_ ->]|[_ ->]]; discriminate.
Qed.

Lemma build_is E (fo : formulas E) (w : world E) c arg seed lum rate y : build fo w c arg seed lum rate = Ok y -> exists sp l, y = population_synth w sp l seed.
Proof.
  assert (ok : forall sp l, Ok (population_synth w sp l seed) = Ok y -> exists sp l, y = population_synth w sp l seed) by (intros sp l [= <-]; eauto).
  destruct c; intros H; repeat (apply Loaded.rbind_inv in H; destruct H as (? & _ & H)); exact (ok _ _ H).
Qed.
Example sky_case c seed rate : exists y y1 y2, build glib nothing c arg1 seed None rate = Ok y /\ y_aux y = [] /\
  in_w (sky0 None None) y = (Ok (Sky (IsSampler 0) (IsSampler 1)), y1) /\
  add_sky mach (Sky (IsSampler 0) (IsSampler 1)) y1 = (Ok tt, y2) /\ dget (y_aux y2) "ra" <> None /\
  acyclic (y_w y2) /\ distinct_names y2 /\ SynthSpec.never_drawn (y_w y2).
Proof.
  destruct (build_spec (real_env mach) glib nothing c arg1 seed None rate) as [B _]. destruct B as (y & B & _).
  { apply accepted_in. intros k _. apply (proj2 (RealSize.leb_iff 0 (arg1 k))). assert (X := arg1_pos k). lra. }
  destruct (build_is _ _ _ _ _ _ _ _ _ B) as (sp & l & Q).
  destruct (sky_on y) as (y1 & y2 & H1 & H2 & AX & _ & AC & DN & ND); [now rewrite Q..|]. exists y, y1, y2.
  split; [exact B|]. split; [now rewrite Q|]. split; [exact H1|]. split; [exact H2|]. split; [rewrite AX; discriminate|]. auto.
Qed.
