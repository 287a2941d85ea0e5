(** Initialisation of the library of elements, continued: everything together. *)
From Coq Require Import Ascii String List ZArith Bool Arith Lia Sorted.
From Verif Require Import Base.Num Base.Res Base.SMap Base.Str Base.Text Base.ListLemmas Model.Shell Model.Specfile Model.EPDL97 Model.Element Model.Elements Model.ElementsFiles
  Spec.MaterialSpec Spec.ElementSpec Spec.ElementsSpec Spec.FilesSpec Spec.InitSpec Proofs.ElementProofs4 Proofs.InitProofs Proofs.InitProofs2 Proofs.InitProofs3.
Import ListNotations.
Set Implicit Arguments.
Local Open Scope string_scope.

Section Init.
Context {N : Num}.
Variable strtod : text -> num.
Variable fs : string -> option text.
Definition eadl_names : list string := (map (fun m => eadl97 m "Constants") ["K"; "L"; "M"] ++ map (fun m => eadl97 m "NonradiativeRates") ["K"; "L"; "M"] ++ map (fun m => eadl97 m "RadiativeRates") ["K"; "L"; "M"])%list.
Lemma default_symbols : map (fun d => (i_symbol d, i_z d)) (@defaultElements N) = combine symbols (map Z.of_nat (seq 1 109)).
Proof. reflexivity. Qed.
Lemma default_names : map (@i_symbol N) defaultElements = symbols.
Proof. reflexivity. Qed.
Lemma symbols_nodup : NoDup symbols.
Proof. repeat (constructor; [cbn; intuition discriminate|]). constructor. Qed.
Lemma rmapM_nth {A B} (f : A -> res B) : forall l v, rmapM f l = Ok v -> length v = length l /\ forall n b, nth_error v n = Some b -> exists a, nth_error l n = Some a /\ f a = Ok b.
Proof.
  induction l as [|a l IH]; intros v H; cbn [rmapM] in H; [injection H as <-; split; [reflexivity|]; intros [|n] b Hn; discriminate|].
  destruct (f a) as [b| | |] eqn:E; cbn [rbind] in H; try discriminate. destruct (rmapM f l) as [bs| | |] eqn:E2; cbn [rbind] in H; try discriminate.
  injection H as <-. destruct (IH bs eq_refl) as [L F]. split; [cbn; now rewrite L|]. intros [|n] c Hn; cbn in Hn; [injection Hn as <-; exists a; split; [reflexivity|exact E]|apply F, Hn].
Qed.
Definition lib0 (ep : @epdl N) (l : list (@element N)) : library := mkLibrary (with_elements elements_empty (symbolDict (@defaultElements N)) l) ep noFiles noFiles noFiles.
Ltac next H lb HL := match type of H with rbind (liftLib ?x) _ = _ => let E := fresh "E" in destruct (liftLib x) as [lb| | |] eqn:E; cbn [rbind] in H; try discriminate H; apply liftLib_ok in E; rename E into HL end.
Lemma init_ok lf directory bindingFile lb : initialize strtod fs directory bindingFile = Ok lb ->
  exists ep0 l, setDataDirectory strtod fs directory epdl_new = (ep0, Ok tt) /\
    (if string_dec bindingFile "" then lb_epdl lb = ep0 else loadBindingEnergies strtod ep0 (fs bindingFile) = (lb_epdl lb, Ok tt)) /\
    rmapM (predefined (lb_epdl lb)) defaultElements = Ok l /\ loaded lf (lib0 (lb_epdl lb) l) lb /\
    (forall f, In f eadl_names -> fs (directory ++ "//" ++ f) <> None) /\
    (forall m, In m ["K"; "L"; "M"] -> getShellConstantsFile lb m = Ok (directory ++ "//" ++ eadl97 m "Constants") /\
       getShellRadiativeTransitionsFile lb m = Ok (directory ++ "//" ++ eadl97 m "RadiativeRates") /\
       getShellNonradiativeTransitionsFile lb m = Ok (directory ++ "//" ++ eadl97 m "NonradiativeRates")).
Proof.
  unfold initialize. intros H. destruct (liftEpdl (setDataDirectory strtod fs directory epdl_new)) as [ep0| | |] eqn:ED; cbn [rbind] in H; try discriminate. apply liftEpdl_ok in ED.
  match type of H with rbind ?x _ = _ => destruct x as [ep| | |] eqn:EP; cbn [rbind] in H; try discriminate end.
  match type of H with rbind ?x _ = _ => destruct x as [l| | |] eqn:EL; cbn [rbind] in H; try discriminate end.
  cbv zeta in H. fold (lib0 ep l) in H.
  next H b1 H1. next H b2 H2. next H b3 H3. next H b4 H4. next H b5 H5. next H b6 H6. next H b7 H7. next H b8 H8. apply liftLib_ok in H.
  apply (@load_const _ _ _ lf) in H1. apply (@load_const _ _ _ lf) in H2. apply (@load_const _ _ _ lf) in H3.
  apply (@load_nonrad _ _ _ lf) in H4. apply (@load_nonrad _ _ _ lf) in H5. apply (@load_nonrad _ _ _ lf) in H6.
  apply (@load_rad _ _ _ lf) in H7. apply (@load_rad _ _ _ lf) in H8. apply (@load_rad _ _ _ lf) in H.
  destruct H1 as (L1 & X1 & G1 & O1 & P1 & Q1). destruct H2 as (L2 & X2 & G2 & O2 & P2 & Q2). destruct H3 as (L3 & X3 & G3 & O3 & P3 & Q3).
  destruct H4 as (L4 & X4 & G4 & O4 & P4 & Q4). destruct H5 as (L5 & X5 & G5 & O5 & P5 & Q5). destruct H6 as (L6 & X6 & G6 & O6 & P6 & Q6).
  destruct H7 as (L7 & X7 & G7 & O7 & P7 & Q7). destruct H8 as (L8 & X8 & G8 & O8 & P8 & Q8). destruct H as (L9 & X9 & G9 & O9 & P9 & Q9).
  assert (LD : loaded lf (lib0 ep l) lb) by (repeat (eapply loaded_trans; [eassumption|]); apply loaded_refl).
  assert (EE : lb_epdl lb = ep) by exact (proj1 LD). rewrite EE. exists ep0, l. split; [exact ED|]. split.
  { destruct (string_dec bindingFile "") as [->|NE]; [cbn in EP; injection EP as <-; reflexivity|].
    destruct (Nat.eqb_spec (String.length bindingFile) 0) as [Z0|_]; [destruct bindingFile; [congruence|discriminate]|]. apply liftEpdl_ok in EP. exact EP. }
  split; [exact EL|]. split; [exact LD|]. split.
  - intros f Hf. unfold eadl_names in Hf. cbn in Hf. repeat destruct Hf as [<-|Hf]; try assumption. contradiction.
  - intros m Hm. cbn in Hm. destruct Hm as [<-|[<-|[<-|[]]]].
    + rewrite P9, P8, P7, P6, P5, P4, O3, O2, G1 by discriminate. rewrite O9, O8, G7 by discriminate. rewrite Q9, Q8, Q7, O6, O5, G4 by discriminate. repeat split.
    + rewrite P9, P8, P7, P6, P5, P4, O3, G2 by discriminate. rewrite O9, G8 by discriminate. rewrite Q9, Q8, Q7, O6, G5 by discriminate. repeat split.
    + rewrite P9, P8, P7, P6, P5, P4, G3 by discriminate. rewrite G9. rewrite Q9, Q8, Q7, G6 by discriminate. repeat split.
Qed.
(** the elements *)
Lemma init_elements lf directory bindingFile lb : initialize strtod fs directory bindingFile = Ok lb ->
  map el_name (es_list (lb_es lb)) = symbols /\ lb_es lb = with_elements elements_empty (dict_of symbols) (es_list (lb_es lb)) /\
  forall n e, nth_error (es_list (lb_es lb)) n = Some e -> exists d e1 calls, nth_error (@defaultElements N) n = Some d /\ predefined (lb_epdl lb) d = Ok e1 /\ all_ok lf e1 calls /\ e = el_run lf e1 calls /\ kept e1 e.
Proof.
  intros H. destruct (init_ok lf _ _ H) as (ep0 & l & ED & EP & EL & (LE & (l' & LS & LN) & LC) & _).
  cbn [lib0 lb_es with_elements es_list es_dict] in LS, LN, LC. destruct (rmapM_nth _ _ EL) as [L F].
  assert (G : forall n e, nth_error (es_list (lb_es lb)) n = Some e -> exists d e1 calls, nth_error (@defaultElements N) n = Some d /\ predefined (lb_epdl lb) d = Ok e1 /\ all_ok lf e1 calls /\ e = el_run lf e1 calls /\ kept e1 e).
  { intros n e Hn. destruct (nth_error l n) as [e1|] eqn:E1.
    - destruct (LC n e1 E1) as (calls & O & X & K). rewrite Hn in X. injection X as ->. destruct (F n e1 E1) as (d & D1 & D2). exists d, e1, calls. tauto.
    - rewrite LS in Hn. cbn in Hn. apply nth_error_None in E1. assert (Q : nth_error l' n = None) by (apply nth_error_None; lia). congruence. }
  split; [|split; [|exact G]].
  - rewrite <- default_names. clear EL F. assert (LL : length (es_list (lb_es lb)) = length (@defaultElements N)) by (rewrite LS; cbn [with_elements es_list]; lia).
    revert LL G. generalize (es_list (lb_es lb)). generalize (@defaultElements N). intros ds es LL G. assert (MP : maps (lb_epdl lb)).
    { destruct (string_dec bindingFile "") as [B|B]; [rewrite EP; exact (setDataDirectory_maps _ _ _ _ ED)|exact (loadBinding_maps _ _ (setDataDirectory_maps _ _ _ _ ED) EP)]. }
    clear -MP LL G. revert ds LL G. induction es as [|e es IH]; intros [|d ds] LL G; cbn in LL; try discriminate; [reflexivity|]. cbn [map]. f_equal.
    + destruct (G 0%nat e eq_refl) as (d' & e1 & c & D & P & _ & _ & K). cbn in D. injection D as <-. destruct (predefined_ok lf _ MP P) as (_ & _ & _ & _ & _ & _ & _ & _ & NM & _).
      rewrite (proj1 K). exact NM.
    + apply IH; [lia|]. intros n x Hn. exact (G (S n) x Hn).
  - rewrite LS. reflexivity.
Qed.
Lemma init_maps directory bindingFile lb : initialize strtod fs directory bindingFile = Ok lb -> maps (lb_epdl lb).
Proof.
  intros H. destruct (init_ok false _ _ H) as (ep0 & l & ED & EP & _).
  destruct (string_dec bindingFile "") as [B|B]; [rewrite EP; exact (setDataDirectory_maps _ _ _ _ ED)|exact (loadBinding_maps _ _ (setDataDirectory_maps _ _ _ _ ED) EP)].
Qed.
End Init.
