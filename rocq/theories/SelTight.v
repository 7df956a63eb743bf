(** Setters of selectors and bounds of their parameters. *)
From Verif Require Import Base BaseFacts Env ParamModel SelModel SelSpec.
Open Scope string_scope.

Section P.
Variable E : env.
Notation V := (V E).
Notation selector := (selector E).

Lemma setters_feed (s : selector) (l : list V) :
  (s_fflux s = true -> selects_on (set_observed_flux s l) (Some l)) /\
  (s_fflux s = false -> s_flum s = true -> selects_on (set_luminosity s l) (Some l)) /\
  (s_fflux s = false -> s_flum s = false -> s_fobs s = true -> selects_on (set_observed_value s l) (Some l)) /\
  (s_fflux s = false -> s_flum s = false -> s_fobs s = false -> s_fdist s = true ->
     selects_on (set_distance s l) (Some l)).
Proof. unfold selects_on. cbn. tauto. Qed.

Lemma setters_independent (s : selector) (l : list V) v : selects_on s v ->
  (s_fflux s = false -> selects_on (set_observed_flux s l) v) /\
  (s_fflux s = true \/ s_flum s = false -> selects_on (set_luminosity s l) v) /\
  (s_fflux s = true \/ s_flum s = true \/ s_fobs s = false -> selects_on (set_observed_value s l) v) /\
  (s_fflux s = true \/ s_flum s = true \/ s_fobs s = true -> selects_on (set_distance s l) v).
Proof.
  unfold selects_on. cbn. intros H.
  destruct (s_fflux s), (s_flum s), (s_fobs s), (s_fdist s);
    repeat split; intros K; intuition (try discriminate; try congruence).
Qed.

Lemma selector_bounds k n lo hi x o : bounded k n lo hi ->
  vle E lo x = false \/ (exists h, hi = Some h /\ vle E x h = false) ->
  exists d, dget (sel_class k) n = Some d /\
    fst (param_set (fun a b => vle E b a) (vle E) d n (Some x) o) = Err RuntimeError.
Proof.
  intros [(-> & -> & -> & ->)|[(-> & -> & -> & ->)|[(-> & -> & -> & ->)|[(-> & -> & -> & ->)|(-> & -> & -> & ->)]]]] H;
    (eexists; split; [reflexivity|]); unfold param_set, check_bound; cbn [pd_free pd_vmin pd_vmax nonneg plain];
    destruct H as [H|(h & Hh & H)]; try discriminate; try (rewrite H; reflexivity);
    injection Hh as <-; destruct (vle E _ x); cbn [rbind]; rewrite ?H; reflexivity.
Qed.
End P.
