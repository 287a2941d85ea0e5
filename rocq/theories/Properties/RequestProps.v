(** C76: questions asked together are answered as if each were asked alone. *)
From Coq Require Import Ascii String List ZArith Reals Bool Arith Lia Lra Permutation.
From Verif Require Import Base.Num Base.Res Base.RSum Base.SMap Base.Str Base.ListLemmas Model.Beam Model.Material Model.TransmissionTable Model.Math Model.Shell Model.Element Model.Elements Model.Layer Model.XRF Model.Multilayer Model.XRFLibrary
  Spec.ShellSpec Spec.ElementSpec Spec.ElementsSpec Spec.BeamSpec Spec.MaterialSpec Spec.MultilayerSpec Spec.SecondarySpec Spec.LibrarySpec Spec.SuperpositionSpec Proofs.MathProofs Proofs.BeamProofs Proofs.MultilayerProofs Proofs.SuperpositionProofs
  Proofs.ElementsProofs6 Proofs.LibraryProofs Proofs.LibraryProofs2 Proofs.LibraryProofs3 Proofs.LibraryProofs4 Proofs.LibraryExample Properties.LibraryProps
  Properties.BeamProps Properties.MultilayerProps Properties.SecondaryProps Properties.SuperpositionProps.
Import ListNotations.
Local Open Scope string_scope.
Local Open Scope R_scope.
Local Existing Instance RNum.
Local Ltac toR := change (@num RNum) with R in *.

Lemma Rsum_swap {A B} (f : A -> B -> R) la lb : Rsum (map (fun a => Rsum (map (f a) lb)) la) = Rsum (map (fun b => Rsum (map (fun a => f a b) la)) lb).
Proof.
  induction la as [|a la IH]; cbn [map Rsum]; [symmetry; apply Rsum_zero; reflexivity|]. rewrite IH, <- Rsum_plus. reflexivity.
Qed.
Lemma Rsum_one {A} (f : A -> R) l n a : nth_error l n = Some a -> (forall m b, nth_error l m = Some b -> m <> n -> f b = 0) -> Rsum (map f l) = f a.
Proof.
  revert n. induction l as [|x l IH]; intros [|n] H Z; cbn in H; try discriminate.
  - injection H as ->. cbn [map Rsum]. rewrite (Rsum_zero f l); [ring|]. intros b I. apply In_nth_error in I as [m I]. apply (Z (S m) b); [exact I|discriminate].
  - cbn [map Rsum]. rewrite (Z 0%nat x eq_refl) by discriminate. rewrite (IH n H); [ring|]. intros m b I D. apply (Z (S m) b I). congruence.
Qed.

Section Requests.
Variables (sortf : list R -> list R) (debug lf : bool) (xl : @xlib RNum) (c : @config RNum).
Local Notation calculate := (@getMultilayerFluorescence RNum sortf debug lf xl c).
Variables (secondary useGeo useMass : Z) (limit : R) (over : @beam RNum).
Local Notation comps := (sample_compositions xl c).
Variable EL : string -> string -> R.
Hypothesis WF : well_formed xl.
Hypothesis PW : pointwise xl.
Hypothesis AE : answers_each xl.
Hypothesis LE : line_energies xl EL.
Hypothesis PLAIN : forall j E f, (j < length (c_sample c))%nat -> In f (families_at xl c comps j E) -> first_word (fst f) <> "dummytext".
(** the fields that add up *)
Definition additive (name : string) : Prop := name = "primary" \/ name = "secondary" \/ has_space name = true \/ name = "rate" /\ (secondary <= 1)%Z.

(** what one question adds under one ray *)
Definition part (name : string) (elements families : list string) (i : nat) (L : string) (n : nat) (E w : R) : R :=
  if String.eqb name "primary" then primary_of xl c elements useMass comps n E w i L (EL (element_of elements n) L)
  else if (0 <? secondary)%Z then
    let g := gains debug xl c elements families useMass limit comps n E w i L (EL (element_of elements n) L) in
    Rsum (map snd (if String.eqb name "secondary" then g else filter (fun x => String.eqb (fst x) name) g))
  else 0.
Section One.
Variables (elements families : list string) (layers : list Z).
Hypothesis WORDS : forall e, In e elements -> one_word e.
Hypothesis POS : forall n, (n < length elements)%nat -> 0 <= threshold xl elements families n.
Lemma amount_sum r name key i L : name = "primary" \/ name = "secondary" \/ has_space name = true -> one_word L ->
  calculate elements families layers secondary useGeo useMass limit over = Ok r ->
  amount r key i L name = Rsum (map (ray_sum xl c elements families layers useMass comps (part name elements families i L) key i L) (sample_rays xl c over)).
Proof.
  intros NM O R. destruct (@C49_primary sortf debug lf xl c EL elements families layers secondary useGeo useMass limit over r WF PW LE WORDS POS R key i L O) as [EX B].
  unfold amount. destruct (line_entry r key i L) as [t|] eqn:T.
  - pose proof (@C58_secondary sortf debug lf xl c elements families layers secondary useGeo useMass limit over EL r WF PW AE LE WORDS POS PLAIN R key i L t O T) as [S1 S2].
    unfold part. destruct (String.eqb_spec name "primary") as [->|NP]; [exact (proj1 (B t eq_refl))|]. destruct (Z.ltb_spec 0 secondary) as [S|S].
    + destruct NM as [->|[->|HS]]; [congruence|exact (proj1 (S1 S))|]. destruct (String.eqb_spec name "secondary") as [->|_]; [discriminate|exact (proj2 (S1 S) name HS)].
    + transitivity 0; [destruct NM as [->|[->|HS]]; [congruence|exact (proj1 (S2 S))|exact (proj2 (S2 S) name HS)]|].
      symmetry. apply Rsum_zero. intros ray _. apply Rsum_zero. intros n _. destruct (excites _ _ _ _ _ _ _ _ _ _ _ _ _); reflexivity.
  - symmetry. apply not_excited. intros X. apply (proj2 EX) in X. congruence.
Qed.
End One.

Theorem C76_together elements families layers r answers :
  (forall e, In e elements -> one_word e) -> (forall n, (n < length elements)%nat -> 0 <= threshold xl elements families n) ->
  calculate elements families layers secondary useGeo useMass limit over = Ok r ->
  Forall2 (fun n ans => calculate [element_of elements n] [family_of families n] [layer_of layers n] secondary useGeo useMass limit over = Ok ans) (seq 0 (length elements)) answers ->
  forall key i L, one_word L ->
  (line_entry r key i L <> None <-> exists ans, In ans answers /\ line_entry ans key i L <> None) /\
  (forall name, additive name -> amount r key i L name = Rsum (map (fun ans => amount ans key i L name) answers)) /\
  (forall n ans, nth_error answers n = Some ans -> key = element_of elements n ++ " " ++ family_of families n ->
     (forall m, (m < length elements)%nat -> m <> n -> element_of elements m ++ " " ++ family_of families m <> key) ->
     (line_entry r key i L <> None <-> line_entry ans key i L <> None) /\ forall name, additive name -> amount r key i L name = amount ans key i L name).
Proof.
  intros WORDS POS R AN key i L O.
  assert (LEN : length answers = length elements).
  { clear -AN. revert AN. rewrite <- (seq_length (length elements) 0) at 2. generalize (seq 0 (length elements)). intros l H. induction H; cbn; congruence. }
  assert (AT : forall n ans, nth_error answers n = Some ans -> (n < length elements)%nat /\ calculate [element_of elements n] [family_of families n] [layer_of layers n] secondary useGeo useMass limit over = Ok ans).
  { intros n ans H. assert (LN : (n < length answers)%nat) by (apply nth_error_Some; congruence). split; [lia|]. rewrite LEN in LN.
    assert (SN : nth_error (seq 0 (length elements)) n = Some n) by (rewrite (nth_error_nth' _ 0%nat) by (rewrite seq_length; exact LN); rewrite seq_nth by exact LN; reflexivity).
    clear -AN H SN. revert answers AN n H SN. generalize (seq 0 (length elements)). 
    assert (G : forall (P : nat -> @table3 RNum -> Prop) l m, Forall2 P l m -> forall k x y, nth_error m k = Some y -> nth_error l k = Some x -> P x y).
    { intros P l m F. induction F; intros [|k] x0 y0 A B; cbn in *; try discriminate; [injection A as <-; injection B as <-; assumption|exact (IHF k x0 y0 A B)]. }
    intros l m F n H SN. exact (G _ l m F n n ans H SN). }
  assert (W1 : forall n, (n < length elements)%nat -> forall e, In e [element_of elements n] -> one_word e).
  { intros n LN e [<-|[]]. apply WORDS. unfold element_of. apply nth_In, LN. }
  assert (P1 : forall n, (n < length elements)%nat -> forall m, (m < length [element_of elements n])%nat -> 0 <= threshold xl [element_of elements n] [family_of families n] m).
  { intros n LN m M. cbn in M. assert (m = 0%nat) by lia. subst m. exact (POS n LN). }
  assert (EN : forall n ans, nth_error answers n = Some ans -> (line_entry ans key i L <> None <-> exists ray, In ray (sample_rays xl c over) /\ excites xl c elements families layers useMass comps n (fst ray) (snd ray) key i L = true)).
  { intros n ans H. destruct (AT n ans H) as [LN A].
    rewrite (proj1 (@C49_primary sortf debug lf xl c EL _ _ _ secondary useGeo useMass limit over ans WF PW LE (W1 n LN) (P1 n LN) A key i L O)).
    split; [intros (ray & m & I & M & X)|intros (ray & I & X)].
    - cbn in M. assert (m = 0%nat) by lia. subst m. exists ray. split; [exact I|exact X].
    - exists ray, 0%nat. split; [exact I|]. split; [cbn; lia|exact X]. }
  assert (EB : line_entry r key i L <> None <-> exists ans, In ans answers /\ line_entry ans key i L <> None).
  { rewrite (proj1 (@C49_primary sortf debug lf xl c EL _ _ _ secondary useGeo useMass limit over r WF PW LE WORDS POS R key i L O)). split.
    - intros (ray & n & I & LN & X). destruct (nth_error answers n) as [ans|] eqn:Q; [|apply nth_error_None in Q; lia].
      exists ans. split; [exact (nth_error_In _ _ Q)|]. apply (EN n ans Q). exists ray. split; [exact I|exact X].
    - intros (ans & I & X). apply In_nth_error in I as [n Q]. apply (EN n ans Q) in X as (ray & I & X). exists ray, n. split; [exact I|]. split; [exact (proj1 (AT n ans Q))|exact X]. }
  assert (SUM3 : forall name, name = "primary" \/ name = "secondary" \/ has_space name = true -> amount r key i L name = Rsum (map (fun ans => amount ans key i L name) answers)).
  { intros name NM. rewrite (amount_sum elements families layers WORDS POS r name key i L NM O R). unfold ray_sum. rewrite Rsum_swap.
    assert (Q : forall k l, (forall n ans, nth_error l n = Some ans -> nth_error answers (k + n) = Some ans) -> Rsum (map (fun ans => amount ans key i L name) l) =
      Rsum (map (fun n => Rsum (map (fun ray => if excites xl c elements families layers useMass comps n (fst ray) (snd ray) key i L then part name elements families i L n (fst ray) (snd ray) else 0) (sample_rays xl c over))) (seq k (length l)))).
    { intros k l. revert k. induction l as [|ans l IH]; intros k H; [reflexivity|]. cbn [map length seq]. change (Rsum (?a :: ?b)) with (a + Rsum b). rewrite (IH (S k)) by (intros n b B; replace (S k + n)%nat with (k + S n)%nat by lia; exact (H (S n) b B)). f_equal.
      pose proof (H 0%nat ans eq_refl) as Q. rewrite Nat.add_0_r in Q. destruct (AT k ans Q) as [LN A].
      rewrite (amount_sum _ _ _ (W1 k LN) (P1 k LN) ans name key i L NM O A). apply Rsum_ext. intros ray _. unfold ray_sum. cbn [length seq map Rsum].
      exact (Rplus_0_r _). }
    rewrite (Q 0%nat answers) by (intros n ans H; exact H). rewrite LEN. reflexivity. }
  assert (SUM : forall name, additive name -> amount r key i L name = Rsum (map (fun ans => amount ans key i L name) answers)).
  { intros name [H|[H|[H|[H S]]]]; [apply SUM3; auto|apply SUM3; auto|apply SUM3; auto|]. subst name.
    rewrite (@rate_detected sortf debug lf xl c elements families layers secondary useGeo useMass limit EL WF PW LE WORDS POS over r key i L S R O).
    rewrite (SUM3 "primary"), (SUM3 "secondary") by auto. rewrite <- Rsum_plus, <- Rsum_mult_l. apply Rsum_ext. intros ans I. apply In_nth_error in I as [n Q]. destruct (AT n ans Q) as [LN A].
    rewrite (@rate_detected sortf debug lf xl c _ _ _ secondary useGeo useMass limit EL WF PW LE (W1 n LN) (P1 n LN) over ans key i L S A O). reflexivity. }
  split; [exact EB|]. split; [exact SUM|]. intros n ans Q K NE.
  assert (Z : forall m b, nth_error answers m = Some b -> m <> n -> line_entry b key i L = None).
  { intros m b H D. destruct (line_entry b key i L) eqn:T; [exfalso|reflexivity]. destruct (AT m b H) as [LM _].
    assert (X : line_entry b key i L <> None) by congruence. apply (EN m b H) in X as (ray & _ & X). unfold excites in X. repeat (apply andb_prop in X as [X _]). apply String.eqb_eq in X. exact (NE m LM D (eq_sym X)). }
  split.
  - rewrite EB. split; [|intros X; exists ans; split; [exact (nth_error_In _ _ Q)|exact X]].
    intros (b & I & X). apply In_nth_error in I as [m H]. destruct (Nat.eq_dec m n) as [->|D]; [rewrite Q in H; injection H as ->; exact X|]. elim X. exact (Z m b H D).
  - intros name AD. rewrite (SUM name AD). apply (Rsum_one (fun ans => amount ans key i L name) answers n ans Q). intros m b H D. unfold amount. rewrite (Z m b H D). reflexivity.
Qed.
End Requests.
Print Assumptions C76_together.

(** The same with the class Elements as library: several elements, families and layers in one call. *)
Theorem C76_library (tostr : R -> string) (depth fuel : nat) (lf : bool) (ops : list (@es_op RNum)) (sortf : list (string * R) -> list (string * R))
  (sortr : list R -> list R) (debug lfd : bool) (c : @config RNum) elements families layers secondary useGeo useMass limit over r answers :
  let es := es_run tostr depth fuel lf elements_empty ops in let xl := @xlib_of RNum tostr depth fuel sortf es in
  let run els fams lays := @getMultilayerFluorescence RNum sortr debug lfd xl c els fams lays secondary useGeo useMass limit over in
  plain_library es -> std_sort_contract (fun a b : string * R => Rltb (snd a) (snd b)) sortf ->
  (forall name e, Elements.getElement es name = Ok e -> first_word name <> "dummytext") -> (forall e, In e elements -> one_word e) ->
  run elements families layers = Ok r ->
  Forall2 (fun n ans => run [element_of elements n] [family_of families n] [layer_of layers n] = Ok ans) (seq 0 (length elements)) answers ->
  forall key i L, one_word L ->
  (line_entry r key i L <> None <-> exists ans, In ans answers /\ line_entry ans key i L <> None) /\
  (forall name, additive secondary name -> amount r key i L name = Rsum (map (fun ans => amount ans key i L name) answers)) /\
  (forall n ans, nth_error answers n = Some ans -> key = element_of elements n ++ " " ++ family_of families n ->
     (forall m, (m < length elements)%nat -> m <> n -> element_of elements m ++ " " ++ family_of families m <> key) ->
     (line_entry r key i L <> None <-> line_entry ans key i L <> None) /\ forall name, additive secondary name -> amount r key i L name = amount ans key i L name).
Proof.
  intros es xl run PL SORT ND WORDS R AN key i L O.
  refine (C76_together sortr debug lfd xl c secondary useGeo useMass limit over (line_energy_in es)
    (library_well_formed _ _ _ _ PL) (library_pointwise _ _ _ _ _) (library_answers_each _ _ _ _ _) (library_line_energies _ _ _ _ PL) _ elements families layers r answers WORDS
    (fun n _ => thresholds_nonneg tostr depth fuel lf ops sortf elements families n PL) R AN key i L O).
  intros j E f _. apply (library_plain_families tostr depth fuel sortf es c (sample_compositions xl c) j E); [|exact ND]. intros l. exact (proj1 (SORT l (by_energy_swo l))).
Qed.
Print Assumptions C76_library.

(** Iron alone, as in C53: the K lines asked for twice and the Ka lines once, with secondary excitation. *)
Section Example76.
Variables (tostr : R -> string) (lf : bool) (sortf : list (string * R) -> list (string * R)).
Hypothesis SORT : std_sort_contract (fun a b : string * R => Rltb (snd a) (snd b)) sortf.
Local Notation es := (es_run tostr 1 1 lf elements_empty C53_history).
Local Notation xl := (@xlib_of RNum tostr 1 1 sortf es).
Theorem C76_example sortr debug lfd limit :
  let run els fams lays := @getMultilayerFluorescence RNum sortr debug lfd xl C53_config els fams lays 1 1 0 limit beam_init in
  exists r rK rKa, run ["Fe"; "Fe"; "Fe"] ["K"; "K"; "Ka"] [0%Z; 0%Z; (-1)%Z] = Ok r /\ run ["Fe"] ["K"] [0%Z] = Ok rK /\ run ["Fe"] ["Ka"] [(-1)%Z] = Ok rKa /\
    line_entry r "Fe K" 0 "KL3" <> None /\
    amount r "Fe K" 0 "KL3" "rate" = 2 * amount rK "Fe K" 0 "KL3" "rate" /\
    amount r "Fe K" 0 "KL3" "Fe KL3 00" = 2 * amount rK "Fe K" 0 "KL3" "Fe KL3 00" /\
    amount r "Fe Ka" 0 "KL3" "rate" = amount rKa "Fe Ka" 0 "KL3" "rate".
Proof.
  intros run. destruct (C53_example tostr lf sortf SORT sortr debug lfd 1%Z limit) as (PL & CL & CC & rK & HK & HL).
  assert (CG : forall els fams lays, (length els <= length fams)%nat -> length lays = 1%nat \/ (1 < length lays /\ length els <= length lays)%nat -> (forall f, In f fams -> f <> "") -> (forall e, In e els -> e = "Fe") -> complete_config tostr 1 1 sortf es C53_config els fams lays 1).
  { intros els fams lays A B C D. destruct CC as [_ _ _ CE CS CK CO CD CF]. constructor; try assumption. intros e I. rewrite (D e I). apply CE. left. reflexivity. }
  assert (ANS : forall els fams lays, complete_config tostr 1 1 sortf es C53_config els fams lays 1 -> exists a, run els fams lays = Ok a) by (intros els fams lays Q; exact (C53_answers tostr 1 1 lf C53_history sortf sortr debug lfd C53_config els fams lays 1 1 0 limit beam_init PL CL SORT Q (or_intror (C53_thick tostr lf sortf)))).
  destruct (ANS ["Fe"; "Fe"; "Fe"] ["K"; "K"; "Ka"] [0%Z; 0%Z; (-1)%Z]) as [r R]; [apply CG; [cbn; lia|right; cbn; lia|intros f [<-|[<-|[<-|[]]]]; discriminate|intros e [<-|[<-|[<-|[]]]]; reflexivity]|].
  destruct (ANS ["Fe"] ["Ka"] [(-1)%Z]) as [rKa HKa]; [apply CG; [cbn; lia|left; reflexivity|intros f [<-|[]]; discriminate|intros e [<-|[]]; reflexivity]|].
  assert (ND : forall name e, Elements.getElement es name = Ok e -> first_word name <> "dummytext") by (intros name e H; apply C53_elements in H; destruct H as [-> _]; discriminate).
  assert (W : forall e, In e ["Fe"; "Fe"; "Fe"] -> one_word e) by (intros e [<-|[<-|[<-|[]]]]; reflexivity).
  assert (AN : Forall2 (fun n ans => run [element_of ["Fe"; "Fe"; "Fe"] n] [family_of ["K"; "K"; "Ka"] n] [layer_of [0%Z; 0%Z; (-1)%Z] n] = Ok ans) (seq 0 (length ["Fe"; "Fe"; "Fe"])) [rK; rK; rKa]).
  { apply Forall2_cons; [exact HK|]. apply Forall2_cons; [exact HK|]. apply Forall2_cons; [exact HKa|]. apply Forall2_nil. }
  pose proof (C76_library tostr 1 1 lf C53_history sortf sortr debug lfd C53_config ["Fe"; "Fe"; "Fe"] ["K"; "K"; "Ka"] [0%Z; 0%Z; (-1)%Z] 1 1 0 limit beam_init r [rK; rK; rKa] PL SORT ND W R AN) as T.
  destruct (T "Fe K" 0%nat "KL3" eq_refl) as (EN & SUM & _). destruct (T "Fe Ka" 0%nat "KL3" eq_refl) as (_ & _ & ALONE).
  assert (Z : forall name, amount rKa "Fe K" 0 "KL3" name = 0).
  { intros name. unfold amount. destruct (line_entry rKa "Fe K" 0 "KL3") eqn:X; [exfalso|reflexivity].
    assert (W1 : forall e, In e ["Fe"] -> one_word e) by (intros e [<-|[]]; reflexivity).
    assert (NN : line_entry rKa "Fe K" 0 "KL3" <> None) by congruence.
    apply (proj1 (@C49_primary sortr debug lfd xl C53_config (line_energy_in es) ["Fe"] ["Ka"] [(-1)%Z] 1 1 0 limit beam_init rKa (library_well_formed _ _ _ _ PL) (library_pointwise _ _ _ _ _) (library_line_energies _ _ _ _ PL) W1
      (fun n _ => thresholds_nonneg tostr 1 1 lf C53_history sortf ["Fe"] ["Ka"] n PL) HKa "Fe K" 0%nat "KL3" eq_refl)) in NN.
    destruct NN as (ray & n & _ & LN & Q). cbn in LN. assert (n = 0%nat) by lia. subst n. unfold excites in Q. repeat (apply andb_prop in Q as [Q _]). discriminate Q. }
  exists r, rK, rKa. split; [exact R|]. split; [exact HK|]. split; [exact HKa|]. split; [|split; [|split]].
  - apply EN. exists rK. split; [left; reflexivity|exact HL].
  - rewrite (SUM "rate") by (right; right; right; split; [reflexivity|lia]). cbn [map Rsum]. rewrite Z. toR. ring.
  - rewrite (SUM "Fe KL3 00") by (right; right; left; reflexivity). cbn [map Rsum]. rewrite Z. toR. ring.
  - apply (ALONE 2%nat rKa); [reflexivity|reflexivity| |right; right; right; split; [reflexivity|lia]].
    intros m M D. cbn in M. destruct m as [|[|[|m]]]; [discriminate|discriminate|congruence|lia].
Qed.
End Example76.
Print Assumptions C76_example.
