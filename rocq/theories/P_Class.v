(** C83: classes of distributions, selections and samplers. *)
From Verif Require Import Base ClassModel ClassSpec ClassTable.
From Verif Require ClassProofs.
Open Scope string_scope.
Open Scope list_scope.

(** The order in which a class is searched: itself, then the classes of its bases, each
    once, those of every base in their own order. *)
Theorem C83_order l meta bases attrs c w' : class_statement meta bases attrs (run l) = (Ok c, w') ->
  exists k r, nth_error (cl w') c = Some k /\ k_mro k = c :: r /\ NoDup (c :: r) /\
    (forall b, In b bases -> exists kb, nth_error (cl (run l)) b = Some kb /\ sub_list (k_mro kb) r) /\
    (forall x, In x r -> exists b kb, In b bases /\ nth_error (cl (run l)) b = Some kb /\ In x (k_mro kb)).
Proof. exact (ClassProofs.order_of_class l meta bases attrs c w'). Qed.
(** A class can be instantiated exactly if no abstract method is left to be implemented,
    whatever classes were defined before. *)
Theorem C83_instantiated_iff_complete l c : no_abstract_mixins (run l) -> c < length (cl (run l)) ->
  (incomplete (run l) c -> instantiate (run l) c = Err TypeError) /\ (~ incomplete (run l) c -> instantiate (run l) c = Ok c).
Proof. exact (ClassProofs.instantiate_iff l c). Qed.
(** An abstract method of a class outside the families is not asked for. *)
Theorem C83_mixin_refuted : exists l c, member (run l) HDist c /\ incomplete (run l) c /\ instantiate (run l) c = Ok c.
Proof.
  exists (predefined ++ [(None, [0], [("bolometric", Abstract)]); (None, [50; id_ParetoDistribution], [("_distribution_name", Str "Mine")])]), 51.
  split; [eexists; split; vm_compute; reflexivity|]. split; [|vm_compute; reflexivity].
  exists "bolometric". do 2 eexists. exists 50. eexists. split; [vm_compute; reflexivity|]. split; [instantiate (2 := [51]); vm_compute; reflexivity|].
  split; [eexists; split; vm_compute; reflexivity|]. intros b u [<-|[]] (k & K & D). vm_compute in K.
  apply (f_equal (fun o => match o with Some x => x | None => k end)) in K. cbn in K. subst k. discriminate.
Qed.

(** A name in a registry makes an instance of the last complete class of the family that
    has it, and nothing else. *)
Theorem C83_found_by_name l h s c : no_abstract_mixins (run l) -> registry_make (run l) h s = Ok c <-> latest (run l) h s c.
Proof. exact (ClassProofs.registry_iff l h s c). Qed.
(** Later classes take a name away only by having it. *)
Theorem C83_names_kept l1 l2 h s :
  (forall c, length (cl (run l1)) <= c -> ~ inherits (run (l1 ++ l2)) c (attr_name h) (Str s)) ->
  registry_make (run (l1 ++ l2)) h s = registry_make (run l1) h s.
Proof. exact (ClassProofs.kept_by_history l1 l2 h s). Qed.
(** A subclass that does not say its name takes the one of its base. *)
Theorem C83_inherited_name_refuted : exists l c, registry_make (run predefined) HDist "ConstantSphericalDistribution" = Ok id_ConstantSphericalDistribution /\
  registry_make (run (predefined ++ l)) HDist "ConstantSphericalDistribution" = Ok c /\ c <> id_ConstantSphericalDistribution /\
  l = [(None, [id_ConstantSphericalDistribution], [("transform", Other)])].
Proof. eexists _, 50. split; [vm_compute; reflexivity|]. split; [|split; [vm_compute; discriminate|reflexivity]]. vm_compute. reflexivity. Qed.
(** A complete class has a name: the class statement of one without raises. *)
Theorem C83_complete_classes_have_names l h bases attrs c w' : no_abstract_mixins (run l) ->
  class_statement (Some h) bases attrs (run l) = (Ok c, w') -> ~ incomplete w' c -> no_abstract_mixins w' ->
  exists s, inherits w' c (attr_name h) (Str s).
Proof. intros NM H. exact (ClassProofs.nameless l h bases attrs NM c w' H). Qed.
Theorem C83_unnamed_sampler_refuted :
  fst (class_statement None [id_AuxiliarySampler] [("true_sampler", Other)] (run predefined)) = Err AttributeError.
Proof. vm_compute. reflexivity. Qed.

(** [issubclass(c, cls)] never answers for a class of the families. *)
Theorem C83_issubclass_refuted w h c cls : member w h cls -> forall b, issubclass w c cls <> Ok b.
Proof. intros M b. exact (ClassProofs.no_answer w h c cls b M). Qed.
Theorem C83_issubclass_raises_refuted :
  issubclass (run predefined) id_ParetoDistribution id_LuminosityDistribution = Err AttributeError /\
  isinstance (run predefined) id_ParetoDistribution id_LuminosityDistribution = Ok true.
Proof. split; vm_compute; reflexivity. Qed.

(** popsynth's own 49 classes meet the hypotheses; nine of them are abstract; the others of
    the families are found under their names. *)
Example C83_applies : no_abstract_mixins (run predefined) /\
  filter (fun c => negb (is_ok (instantiate (run predefined) c))) (seq 0 50) = [2; 3; 4; 5; 6; 7; 10; 37; 47] /\
  map (fun h => length (cl_reg (run predefined) h)) [HDist; HSel; HAux] = [15; 11; 13].
Proof.
  split; [apply ClassProofs.mixins_check; vm_compute; reflexivity|split; vm_compute; reflexivity].
Qed.
(** A class of a user with a method still missing: it is
    abstract and not registered; the next one completes it. *)
Example C83_applies_user : let l := predefined ++
    [(None, [id_SphericalDistribution], [("_distribution_name", Str "Shell"); ("evolution", Abstract); ("dNdV", Other)]);
     (None, [50], [("_distribution_name", Str "ThinShell"); ("evolution", Other)])] in
  instantiate (run l) 50 = Err TypeError /\ instantiate (run l) 51 = Ok 51 /\
  registry_make (run l) HDist "Shell" = Err KeyError /\ registry_make (run l) HDist "ThinShell" = Ok 51 /\
  registry_make (run l) HDist "ParetoDistribution" = Ok id_ParetoDistribution.
Proof. vm_compute. repeat split. Qed.

Print Assumptions C83_order.
Print Assumptions C83_instantiated_iff_complete.
Print Assumptions C83_mixin_refuted.
Print Assumptions C83_found_by_name.
Print Assumptions C83_names_kept.
Print Assumptions C83_inherited_name_refuted.
Print Assumptions C83_complete_classes_have_names.
Print Assumptions C83_unnamed_sampler_refuted.
Print Assumptions C83_issubclass_refuted.
Print Assumptions C83_issubclass_raises_refuted.
