(** A file of mass attenuation coefficients. *)
From Coq Require Import Ascii String List ZArith Bool Arith Lia.
From Verif Require Import Base.Num Base.Res Base.SMap Base.Str Base.Text Model.Shell Model.Specfile Model.EPDL97 Model.Element Model.Elements Model.ElementsFiles
  Spec.ElementSpec Spec.InitSpec Spec.MergeSpec Spec.EPDL97Spec Spec.FilesSpec Spec.MuFileSpec Proofs.ElementProofs Proofs.ElementProofs2 Proofs.ElementProofs3 Proofs.ElementProofs4 Proofs.ElementsProofs Proofs.EPDL97Proofs7 Proofs.InitProofs Proofs.MergeProofs Properties.MergeProps.
Import ListNotations.
Set Implicit Arguments.
Local Open Scope string_scope.

Lemma fills_iff q l : In q ["energy"; "photoelectric"; "coherent"; "compton"; "pair"] -> (fills q l = true <-> stands_for q l).
Proof.
  intros Q. assert (I : forall w, contains w (upper l) = true <-> mentions w l) by (intros w; apply contains_iff).
  cbn in Q. destruct Q as [<-|[<-|[<-|[<-|[<-|[]]]]]]; unfold fills; cbn [String.eqb Ascii.eqb Bool.eqb]; cbv zeta.
  - rewrite I. split; [apply for_energy|intros H; inversion H; assumption].
  - rewrite I. split; [apply for_photo|intros H; inversion H; assumption].
  - rewrite orb_true_iff, andb_true_iff, negb_true_iff, !I. split.
    + intros [H|[H K]]; [apply for_rayleigh, H|apply for_coherent; [exact H|]]. intros M. apply I in M. congruence.
    + intros H. inversion H; subst; [left; assumption|right; split; [assumption|]]. destruct (contains "INCOHERENT" (upper l)) eqn:E; [|reflexivity]. apply I in E. contradiction.
  - rewrite I. split; [apply for_compton|intros H; inversion H; assumption].
  - rewrite I. split; [apply for_pair|intros H; inversion H; assumption].
Qed.

Section C.
Context {N : Num}.
Lemma rmapM_column (rows : list (list num)) j v : rmapM (fun row => vget row j) rows = Ok v <-> Forall2 (fun row x => nth_error row j = Some x) rows v.
Proof.
  revert v. induction rows as [|r rows IH]; intros v; cbn [rmapM].
  - split; [intros H; apply Ok_inj in H; subst; constructor|intros H; inversion H; reflexivity].
  - split.
    + intros H. apply rbind_Ok in H as (x & X & H). apply rbind_Ok in H as (w & W & H). apply Ok_inj in H. subst v. constructor; [|apply IH, W]. unfold vget in X. destruct (nth_error r j); [|discriminate]. apply Ok_inj in X. congruence.
    + intros H. inversion H as [|? x ? w X W]; subst. unfold vget at 1. rewrite X. cbn [of_opt rbind]. rewrite (proj2 (IH w) W). reflexivity.
Qed.
(** scanning the labels from place i on, with [v] read so far *)
Lemma fileColumn_spec q (rows : list (list num)) : In q ["energy"; "photoelectric"; "coherent"; "compton"; "pair"] -> forall labels i v w, fileColumn q labels i rows v = Ok w ->
  (w = v /\ forall l, In l labels -> ~ stands_for q l) \/
  exists j l, nth_error labels j = Some l /\ stands_for q l /\ (forall j' l', (j < j')%nat -> nth_error labels j' = Some l' -> ~ stands_for q l') /\ Forall2 (fun row x => nth_error row (i + j)%nat = Some x) rows w.
Proof.
  intros Q. induction labels as [|l labels IH]; intros i v w H; cbn [fileColumn] in H; [apply Ok_inj in H; subst; left; split; [reflexivity|intros l []]|].
  assert (STEP : forall v', fileColumn q labels (S i) rows v' = Ok w -> (w = v' /\ forall l, In l labels -> ~ stands_for q l) \/
     exists j l', nth_error (l :: labels) j = Some l' /\ stands_for q l' /\ (forall j' l'', (j < j')%nat -> nth_error (l :: labels) j' = Some l'' -> ~ stands_for q l'') /\ Forall2 (fun row x => nth_error row (i + j)%nat = Some x) rows w).
  { intros v' H'. destruct (IH _ _ _ H') as [A|(j & l' & A & B & C & D)]; [left; exact A|right]. exists (S j), l'. split; [exact A|]. split; [exact B|]. split.
    - intros [|j'] l'' L E; [lia|]. apply (C j' l''); [lia|exact E].
    - replace (i + S j)%nat with (S i + j)%nat by lia. exact D. }
  destruct (fills q l) eqn:F.
  - apply rbind_Ok in H as (u & U & H). apply rmapM_column in U. destruct (STEP _ H) as [[-> A]|A]; [|right; exact A]. right. exists 0%nat, l. split; [reflexivity|]. split; [apply (fills_iff l Q), F|]. split.
    + intros [|j'] l'' L E; [lia|]. apply A. eapply nth_error_In, E.
    + rewrite Nat.add_0_r. exact U.
  - assert (NF : ~ stands_for q l) by (intros S; apply (fills_iff l Q) in S; congruence). destruct (STEP _ H) as [[-> A]|A]; [left|right; exact A]. split; [reflexivity|]. intros l' [<-|I]; auto.
Qed.
Lemma given_column_file q (rows : list (list num)) labels w : In q ["energy"; "photoelectric"; "coherent"; "compton"; "pair"] -> fileColumn q labels 0 rows [] = Ok w -> given_column q labels rows w.
Proof. intros Q H. exact (@fileColumn_spec q rows Q labels 0%nat [] w H). Qed.
Lemma fileColumn_total q (rows : list (list num)) : forall labels i v, Forall (fun row => (i + length labels <= length row)%nat) rows -> exists w, fileColumn q labels i rows v = Ok w.
Proof.
  induction labels as [|l labels IH]; intros i v H; cbn [fileColumn]; [eauto|].
  assert (H' : Forall (fun row : list num => (S i + length labels <= length row)%nat) rows) by (eapply Forall_impl; [|exact H]; cbn; intros; lia).
  destruct (fills q l); [|apply IH, H'].
  assert (U : exists u, rmapM (fun row => vget row i) rows = Ok u).
  { clear - H. induction H as [|r rows L _ IHr]; [eexists; reflexivity|]. destruct IHr as [u U]. cbn [rmapM length] in *. unfold vget at 1. destruct (nth_error r i) eqn:E; [|apply nth_error_None in E; lia]. cbn [of_opt rbind]. rewrite U. eexists; reflexivity. }
  destruct U as [u U]. rewrite U. cbn [rbind]. apply IH, H'.
Qed.
Lemma Forall2_fun {A B} (f : A -> option B) l : forall v w, Forall2 (fun a x => f a = Some x) l v -> Forall2 (fun a x => f a = Some x) l w -> v = w.
Proof. induction l as [|a l IH]; intros v w H K; inversion H; inversion K; subst; [reflexivity|]. f_equal; [congruence|]. apply IH; assumption. Qed.
Lemma given_column_unique q labels (rows : list (list num)) v w : given_column q labels rows v -> given_column q labels rows w -> v = w.
Proof.
  intros [[-> A]|(j & l & A & B & C & D)] [[-> A']|(j' & l' & A' & B' & C' & D')]; [reflexivity| | |].
  - destruct (A l'); [eapply nth_error_In, A'|exact B'].
  - destruct (A' l); [eapply nth_error_In, A|exact B].
  - destruct (Nat.lt_trichotomy j j') as [L|[<-|L]]; [destruct (C j' l' L A' B')| |destruct (C' j l L A B)]. eapply Forall2_fun; [exact D|exact D'].
Qed.

(** what a call does to an element depends on that element and the data base only *)
Definition same_place (lb0 lb : @library N) (i : nat) : Prop :=
  es_dict (lb_es lb) = es_dict (lb_es lb0) /\ lb_epdl lb = lb_epdl lb0 /\ nth_error (es_list (lb_es lb)) i = nth_error (es_list (lb_es lb0)) i.
Lemma setMac_local (lb0 lb : @library N) name en ph co cp pr i e : mfind sltb name (es_dict (lb_es lb0)) = Some i -> nth_error (es_list (lb_es lb0)) i = Some e -> same_place lb0 lb i ->
  exists e' r, info_same e e' /\ setMassAttenuationCoefficients lb name en ph co cp pr = (with_list lb (set_nth (es_list (lb_es lb)) i e'), r) /\
    setMassAttenuationCoefficients lb0 name en ph co cp pr = (with_list lb0 (set_nth (es_list (lb_es lb0)) i e'), r).
Proof.
  intros F E (D & P & L). assert (SAME : forall b : @library N, nth_error (es_list (lb_es b)) i = Some e -> with_list b (set_nth (es_list (lb_es b)) i e) = b).
  { intros b Eb. assert (S : set_nth (es_list (lb_es b)) i e = es_list (lb_es b)).
    { revert Eb. generalize (es_list (lb_es b)). clear. intros l. revert i. induction l as [|a l IH]; intros [|i] E; cbn in *; try reflexivity; [congruence|]. now rewrite IH. }
    rewrite S. destruct b as [[] ? ? ? ?]. reflexivity. }
  unfold setMassAttenuationCoefficients. rewrite D, F, L, E, P. rewrite E in L.
  destruct (getMassAttenuationTables (lb_epdl lb0) (el_z e)) as [t| | |].
  - unfold seqOk. pose proof (putTables_any t e) as PA. destruct (putTables t e) as [e1 [[]| | |]]; try (eexists e1, _; split; [exact PA|split; reflexivity]).
    pose proof (merge_any e1 t en ph co cp pr) as M. destruct (mergeTables e1 t en ph co cp pr) as [e2 r]. exists e2, r. split; [exact (info_trans PA M)|split; reflexivity].
  - exists e. eexists. split; [apply info_refl|]. rewrite !SAME by assumption. split; reflexivity.
  - exists e. eexists. split; [apply info_refl|]. rewrite !SAME by assumption. split; reflexivity.
  - exists e. eexists. split; [apply info_refl|]. rewrite !SAME by assumption. split; reflexivity.
Qed.
End C.
