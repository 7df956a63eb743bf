(** Descriptions of synths. *)
From Verif Require Import Base BaseFacts Env ParamModel SelModel DistModel AuxModel PopModel SynthModel DescModel DescSpec.
From Verif Require Import SurveyProofs.
Open Scope string_scope.
Open Scope list_scope.

Lemma rmapM_ex A B (f : A -> res B) (l : list A) : (forall x, In x l -> exists y, f x = Ok y) ->
  exists r, rmapM f l = Ok r /\ (forall y, In y r <-> exists x, In x l /\ f x = Ok y).
Proof.
  induction l as [|x l IH]; intros H; cbn.
  - exists nil. split; [reflexivity|]. intros y. split; [intros []|intros (x & [] & _)].
  - destruct (H x (or_introl eq_refl)) as [z Z]. destruct IH as (r & R & I); [intros; apply H; now right|]. exists (z :: r). rewrite Z. cbn. rewrite R. cbn. split; [reflexivity|].
    intros y. split.
    + intros [<-|Y]; [exists x; auto|]. apply I in Y as (w & W & Q). exists w. auto.
    + intros (w & [<-|W] & Q); [left; congruence|]. right. apply I. eauto.
Qed.
Section P.
Context (E : env).
Implicit Types y : synth E.

Lemma secs_are y : present y -> exists s, der_secs y = Ok s /\ forall k i, In (k, i) s <-> of_luminosity y k i.
Proof.
  intros (PD & _). unfold der_secs. destruct (y_der y) as [d|] eqn:D.
  - destruct (PD d eq_refl) as [a A]. unfold sampler_is in A. rewrite A. cbn. eexists. split; [reflexivity|]. intros k i. split.
    + intros I. exists d, a. auto.
    + intros (d' & a' & D' & A' & I). rewrite D in D'. injection D' as <-. unfold sampler_is in A'. rewrite A in A'. now injection A' as <-.
  - eexists. split; [reflexivity|]. intros k i. split; [intros []|]. intros (d & a & D' & _). congruence.
Qed.
Lemma others_are y s k i : (forall k i, In (k, i) s <-> of_luminosity y k i) -> In (k, i) (others y s) <-> In (k, i) (y_aux y) /\ forall j, ~ of_luminosity y k j.
Proof.
  intros S. unfold others. rewrite filter_In. cbn [fst]. rewrite Bool.negb_true_iff. split; intros [I N]; (split; [exact I|]).
  - intros j J. apply S in J. assert (X : mem k (dkeys s) = true) by (apply mem_In; unfold dkeys; apply in_map_iff; exists (k, j); auto). congruence.
  - destruct (mem k (dkeys s)) eqn:M; [|reflexivity]. apply mem_In in M. unfold dkeys in M. apply in_map_iff in M as ([k' j] & K & J). cbn in K. subst k'. exfalso. apply (N j). now apply S.
Qed.
Lemma sect_ok y t i a : sampler_is y i a -> sampler_sect y t i = Ok (Sect t None (table_of a)).
Proof. unfold sampler_is, sampler_sect. now intros ->. Qed.
Lemma display_all y : present y -> exists l, display_synth y = Ok l /\ forall s, In s l <-> describes y s.
Proof.
  intros P. assert (P' := P). destruct P' as (PD & PA & PS). destruct (secs_are y P) as (sc & SC & S).
  destruct (rmapM_ex _ _ (fun ki => sampler_sect y (fst ki) (snd ki)) sc) as (ra & RA & IA).
  { intros [k i] I. apply S in I. destruct (PS k i I) as [a A]. eexists. exact (sect_ok _ _ _ _ A). }
  destruct (rmapM_ex _ _ (fun ki => sampler_sect y (fst ki) (snd ki)) (others y sc)) as (rb & RB & IB).
  { intros [k i] I. apply (others_are y sc k i S) in I as [I _]. destruct (PA k i I) as [a A]. eexists. exact (sect_ok _ _ _ _ A). }
  assert (LU : exists lu, match y_der y with
              | Some i => rmap (fun s => [s]) (sampler_sect y "Luminosity Function" i)
              | None => Ok (match y_lum y with Some l => [Sect "Luminosity Function" (Some (m_form (y_lumm y))) (po_store (ld_par l))] | None => nil end) end = Ok lu /\
     forall s, In s lu <-> (exists d a, y_der y = Some d /\ sampler_is y d a /\ s = Sect "Luminosity Function" None (table_of a)) \/
        (exists l, y_der y = None /\ y_lum y = Some l /\ s = Sect "Luminosity Function" (Some (m_form (y_lumm y))) (po_store (ld_par l)))).
  { destruct (y_der y) as [d|] eqn:D.
    - destruct (PD d eq_refl) as [a A]. rewrite (sect_ok _ _ _ _ A). cbn [rmap rbind]. eexists. split; [reflexivity|]. intros s. split.
      + intros [<-|[]]. left. exists d, a. auto.
      + intros [(d' & a' & D' & A' & ->)|(l & D' & _)]; [|discriminate]. injection D' as <-. left. unfold sampler_is in *. rewrite A in A'. now injection A' as <-.
    - eexists. split; [reflexivity|]. intros s. split.
      + destruct (y_lum y) as [l|] eqn:L; [|intros []]. intros [<-|[]]. right. exists l. auto.
      + intros [(d' & a' & D' & _)|(l & _ & -> & ->)]; [discriminate|]. now left. }
  destruct LU as (lu & LU & IL). unfold display_synth. rewrite LU. cbn [rbind]. rewrite SC. cbn [rbind]. rewrite RA. cbn [rbind]. rewrite RB. cbn [rbind].
  eexists. split; [reflexivity|]. intros s. rewrite !in_app_iff, IL, IA, IB. unfold describes. cbn [In]. split.
  - intros [[X|X]|[[X|[]]|[((k, i) & I & Q)|((k, i) & I & Q)]]]; [auto|auto|symmetry in X; auto| |].
    + apply S in I. destruct (PS k i I) as [a A]. cbn [fst snd] in Q. rewrite (sect_ok _ _ _ _ A) in Q. injection Q as <-. right; right; right; left. exists k, i, a. auto.
    + apply (others_are y sc k i S) in I as [I N]. destruct (PA k i I) as [a A]. cbn [fst snd] in Q. rewrite (sect_ok _ _ _ _ A) in Q. injection Q as <-. right; right; right; right. exists k, i, a. auto.
  - intros [X|[X|[X|[(k & i & a & I & A & ->)|(k & i & a & I & N & A & ->)]]]]; [symmetry in X; auto|auto|auto| |].
    + right; right; left. exists (k, i). split; [now apply S|]. exact (sect_ok _ _ _ _ A).
    + right; right; right. exists (k, i). split; [now apply (others_are y sc k i S)|]. exact (sect_ok _ _ _ _ A).
Qed.

(** *** repr *)
Lemma repr_ok y i a : sampler_is y i a -> exists l, sampler_repr y i = Ok l /\ (forall k v, In (k, v) (table_of a) -> In (Row k v) l) /\ In (Line (name_of a)) l /\ In (Observed (a_observed (a_st a))) l /\ (forall k j, In (k, j) (a_sec (a_ln a)) -> In (Child k) l).
Proof.
  unfold sampler_is, sampler_repr. intros ->. cbn [rbind of_opt]. eexists. split; [reflexivity|]. split; [|split; [now left|split; [right; now left|]]].
  - intros k v I. right. right. apply in_app_iff. left. unfold rows. apply in_map_iff. exists (k, v). auto.
  - intros k j I. right. right. apply in_app_iff. right. apply in_app_iff. right. apply in_map_iff. exists (k, j). auto.
Qed.
Lemma repr_raises y : y_der y = None -> y_lum y = None -> repr_synth y = Err NameError.
Proof. intros D L. unfold repr_synth. now rewrite D, L. Qed.
Lemma dist_rows nm f o k v : In (k, v) (po_store o) -> In (Row k v) (@dist_repr E nm f o).
Proof. intros I. right. right. unfold rows. apply in_map_iff. exists (k, v). auto. Qed.
Lemma repr_all y : present y -> y_der y <> None \/ y_lum y <> None -> exists t, repr_synth y = Ok t /\
  (forall s k v, describes y s -> In (k, v) (se_rows s) -> In (Row k v) t) /\
  (forall i a, y_der y = Some i \/ (exists k, of_luminosity y k i) \/ (exists k, In (k, i) (y_aux y) /\ forall j, ~ of_luminosity y k j) -> sampler_is y i a ->
     In (Line (name_of a)) t /\ forall k j, In (k, j) (a_sec (a_ln a)) -> In (Child k) t).
Proof.
  intros P LU. assert (P' := P). destruct P' as (PD & PA & PS). destruct (secs_are y P) as (sc & SC & S).
  destruct (rmapM_ex _ _ (fun ki => sampler_repr y (snd ki)) sc) as (ra & RA & IA).
  { intros [k i] I. apply S in I. destruct (PS k i I) as [a A]. destruct (repr_ok y i a A) as (l & L & _). exists l. exact L. }
  destruct (rmapM_ex _ _ (fun ki => sampler_repr y (snd ki)) (others y sc)) as (rb & RB & IB).
  { intros [k i] I. apply (others_are y sc k i S) in I as [I _]. destruct (PA k i I) as [a A]. destruct (repr_ok y i a A) as (l & L & _). exists l. exact L. }
  assert (X : exists lu : list (piece E), match y_der y with
              | Some i => sampler_repr y i
              | None => match y_lum y with Some l => Ok (@dist_repr E (ld_name l) (m_form (y_lumm y)) (ld_par l)) | None => Err NameError end end = Ok lu).
  { destruct (y_der y) as [d|] eqn:D; [|destruct (y_lum y); [eauto|destruct LU; contradiction]]. destruct (PD d eq_refl) as [a A]. destruct (repr_ok y d a A) as (l & L & _). eauto. }
  destruct X as [lu X]. unfold repr_synth. rewrite X. cbn [rbind]. rewrite SC. cbn [rbind]. rewrite RA. cbn [rbind]. rewrite RB. cbn [rbind].
  eexists. split; [reflexivity|].
  assert (INA : forall k i l q, of_luminosity y k i -> sampler_repr y i = Ok l -> In q l -> In q (List.concat ra)).
  { intros k i l q O L Q. apply in_concat. exists l. split; [|exact Q]. apply IA. exists (k, i). split; [now apply S|exact L]. }
  assert (INB : forall k i l q, In (k, i) (y_aux y) -> (forall j, ~ of_luminosity y k j) -> sampler_repr y i = Ok l -> In q l -> In q (List.concat rb)).
  { intros k i l q I N L Q. apply in_concat. exists l. split; [|exact Q]. apply IB. exists (k, i). split; [now apply (others_are y sc k i S)|exact L]. }
  split.
  - intros s k v DS I. rewrite !in_app_iff. destruct DS as [->|[(d & a & D & A & ->)|[(l & D & L & ->)|[(k' & i & a & O & A & ->)|(k' & i & a & AU & N & A & ->)]]]]; cbn [se_rows] in I.
    + right. left. right. now apply dist_rows.
    + left. right. rewrite D in X. destruct (repr_ok y d a A) as (l & L & R & _). rewrite L in X. injection X as <-. now apply R.
    + left. right. rewrite D, L in X. injection X as <-. now apply dist_rows.
    + right. right. left. destruct (repr_ok y i a A) as (l & L & R & _). apply (INA k' i l _ O L). now apply R.
    + right. right. right. destruct (repr_ok y i a A) as (l & L & R & _). apply (INB k' i l _ AU N L). now apply R.
  - intros i a W A. destruct (repr_ok y i a A) as (l & L & _ & R1 & _ & R2).
    assert (J : forall q, In q l -> In q ((Line "Luminosity Function" :: lu) ++ (Line "Spatial Function" :: @dist_repr E (sd_name (y_sp y)) (m_form (y_spm y)) (sd_par (y_sp y))) ++ List.concat ra ++ List.concat rb)).
    { intros q Q. rewrite !in_app_iff. destruct W as [D|[(k & O)|(k & AU & N)]].
      - left. right. rewrite D, L in X. now injection X as <-.
      - right. right. left. now apply (INA k i l q).
      - right. right. right. now apply (INB k i l q). }
    split; [now apply J|]. intros k j I. apply J. now apply (R2 k j).
Qed.
End P.
