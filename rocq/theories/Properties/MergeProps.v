(** C71: mass attenuation coefficients given by the user for an element of a library. *)
From Coq Require Import Ascii String List ZArith Reals Bool Arith Lia Lra Sorted.
From Verif Require Import Base.Num Base.Res Base.SMap Base.Str Base.Text Model.Shell Model.Specfile Model.EPDL97 Model.Element Model.Elements Model.ElementsFiles
  Spec.ShellSpec Spec.MaterialSpec Spec.ElementSpec Spec.InitSpec Spec.MergeSpec Proofs.MathProofs Proofs.ElementProofs Proofs.ElementProofs2 Proofs.ElementProofs3 Proofs.ElementProofs4 Proofs.ElementProofs8 Proofs.ElementsProofs Proofs.InitProofs Proofs.InitProofs4
  Proofs.EPDL97Proofs9 Proofs.MergeProofs Proofs.MergeProofs2 Proofs.MergeProofs3 Proofs.MergeProofs4 Proofs.MergeProofs5 Proofs.MergeProofs6 Proofs.MergeProofs7 Proofs.MergeProofs8 Proofs.MergeExample.
Import ListNotations.
Set Implicit Arguments.
Local Open Scope string_scope.

Lemma get_index {N : Num} (es : @elements N) name e : getElement es name = Ok e -> exists i, mfind sltb name (es_dict es) = Some i /\ nth_error (es_list es) i = Some e.
Proof.
  unfold getElement, elementAt. destruct (isElementNameDefined es name); [|discriminate]. destruct (mfind sltb name (es_dict es)) as [i|]; [|discriminate]. cbn [of_opt rbind]. unfold vget.
  destruct (nth_error (es_list es) i) as [a|] eqn:E; [|discriminate]. cbn. intros H. apply Ok_inj in H. subst a. exists i. auto.
Qed.
Lemma get_set {N : Num} (lb : library) name i (e e' : @element N) : getElement (lb_es lb) name = Ok e -> mfind sltb name (es_dict (lb_es lb)) = Some i -> nth_error (es_list (lb_es lb)) i = Some e ->
  getElement (lb_es (with_list lb (set_nth (es_list (lb_es lb)) i e'))) name = Ok e'.
Proof.
  intros G F E. unfold getElement, elementAt in *. cbn [with_list lb_es]. change (isElementNameDefined (with_elements (lb_es lb) (es_dict (lb_es lb)) (set_nth (es_list (lb_es lb)) i e')) name) with (isElementNameDefined (lb_es lb) name).
  destruct (isElementNameDefined (lb_es lb) name); [|discriminate]. cbn [with_elements es_dict es_list]. rewrite F. cbn [of_opt rbind]. unfold vget. rewrite set_nth_same by (apply nth_error_Some; congruence). reflexivity.
Qed.

(** Whatever the outcome, only the coefficients of the element named change: the data base, the file
    names, the materials and every other element stay, and the element keeps its description, its
    binding energies and its shells. *)
Theorem C71_frame {N : Num} (lb : library) name energy photo coherent compton pairv (e : @element N) lb' out :
  (forall n a, getElement (lb_es lb) n = Ok a -> el_name a = n) ->
  getElement (lb_es lb) name = Ok e ->
  setMassAttenuationCoefficients lb name energy photo coherent compton pairv = (lb', out) ->
  lb_epdl lb' = lb_epdl lb /\ lb_const lb' = lb_const lb /\ lb_rad lb' = lb_rad lb /\ lb_nonrad lb' = lb_nonrad lb /\
  es_mats (lb_es lb') = es_mats (lb_es lb) /\ getElementNames (lb_es lb') = getElementNames (lb_es lb) /\
  (forall n, n <> name -> getElement (lb_es lb') n = getElement (lb_es lb) n) /\
  exists e', getElement (lb_es lb') name = Ok e' /\ same_description e e'.
Proof.
  intros NM G H. destruct (get_index _ _ G) as (i & F & E). destruct (setMac_any lb name energy photo coherent compton pairv F E) as (e' & I & Q). rewrite H in Q. cbn [fst] in Q. subst lb'.
  split; [reflexivity|]. split; [reflexivity|]. split; [reflexivity|]. split; [reflexivity|]. split; [reflexivity|]. split.
  { unfold getElementNames. cbn [with_list lb_es with_elements es_list]. apply (@set_nth_map _ _ (@el_name N) _ i e' e E). apply I. }
  split.
  - intros n D. unfold getElement, elementAt. cbn [with_list lb_es].
    change (isElementNameDefined (with_elements (lb_es lb) (es_dict (lb_es lb)) (set_nth (es_list (lb_es lb)) i e')) n) with (isElementNameDefined (lb_es lb) n).
    destruct (isElementNameDefined (lb_es lb) n) eqn:DF; [|reflexivity]. cbn [with_elements es_dict es_list]. destruct (mfind sltb n (es_dict (lb_es lb))) as [k|] eqn:FN; [|reflexivity]. cbn [of_opt rbind]. unfold vget.
    rewrite set_nth_other; [reflexivity|]. intros <-. apply D. rewrite <- (NM n e), <- (NM name e G); [reflexivity|]. unfold getElement, elementAt. rewrite DF, FN. cbn [of_opt rbind]. unfold vget. rewrite E. reflexivity.
  - exists e'. split; [exact (get_set _ _ e' G F E)|]. exact I.
Qed.
Print Assumptions C71_frame.
(** an unknown name is refused *)
Theorem C71_unknown {N : Num} (lb : @library N) name energy photo coherent compton pairv :
  name <> "" -> getElement (lb_es lb) name = Throw InvalidArgument -> setMassAttenuationCoefficients lb name energy photo coherent compton pairv = (lb, Throw InvalidArgument).
Proof.
  intros NE H. unfold setMassAttenuationCoefficients. destruct (mfind sltb name (es_dict (lb_es lb))) as [i|] eqn:F; [|reflexivity]. exfalso. unfold getElement, elementAt, isElementNameDefined, mmem in H. rewrite F in H. cbn [of_opt rbind] in H.
  destruct name; [contradiction|]. cbn [String.length Nat.eqb] in H. unfold vget in H. destruct (nth_error _ i); discriminate.
Qed.
Print Assumptions C71_unknown.

Local Open Scope R_scope.
Local Existing Instance RNum.
Lemma setMac_parts (lb lb' : @library RNum) name energy photo coherent compton pairv e t : getElement (lb_es lb) name = Ok e -> getMassAttenuationTables (lb_epdl lb) (el_z e) = Ok t ->
  setMassAttenuationCoefficients lb name energy photo coherent compton pairv = (lb', Ok tt) ->
  exists e1 e', putTables t e = (e1, Ok tt) /\ e1 = el_run false e (takes t) /\ mergeTables e1 t energy photo coherent compton pairv = (e', Ok tt) /\ getElement (lb_es lb') name = Ok e'.
Proof.
  intros G T H. destruct (get_index _ _ G) as (i & F & E). unfold setMassAttenuationCoefficients in H. rewrite F, E, T in H. unfold seqOk in H.
  destruct (putTables t e) as [e1 [[]| | |]] eqn:P; try discriminate. destruct (mergeTables e1 t energy photo coherent compton pairv) as [e' r] eqn:M. injection H as <- ->.
  exists e1, e'. split; [reflexivity|]. split; [exact (proj2 (putTables_run false _ _ P))|]. split; [exact M|]. exact (get_set _ _ e' G F E).
Qed.

(** The table of an element after data without edges were given: the energies of the data base below
    them, all but the last, then the energies given; from there on the four columns are the ones given. *)
Theorem C71_table : forall (lb lb' : library) name (energy photo coherent compton pairv : list R) e t e0,
  getElement (lb_es lb) name = Ok e -> getMassAttenuationTables (lb_epdl lb) (el_z e) = Ok t ->
  setMassAttenuationCoefficients lb name energy photo coherent compton pairv = (lb', Ok tt) ->
  apart energy -> nth_error energy 0 = Some e0 ->
  exists e' (below : list R) g rest, getElement (lb_es lb') name = Ok e' /\
    column_at t "energy" = (below ++ g :: rest)%list /\ Forall (fun x => x < e0) below /\ (below = [] \/ g < e0) /\
    (g < e0 -> forall g', hd_error rest = Some g' -> ~ g' < e0) /\
    mfind sltb "energy" (getMassAttenuationCoefficients_all e') = Some (below ++ energy)%list /\
    forall k v, In (k, v) [("coherent", coherent); ("compton", compton); ("pair", pairv); ("photoelectric", photo)] ->
      exists w, mfind sltb k (getMassAttenuationCoefficients_all e') = Some w /\ length w = length (below ++ energy) /\ skipn (length below) w = firstn (length energy) v.
Proof.
  intros lb lb' name energy photo co cp pr e t e0 G T H AP E0. destruct (setMac_parts _ _ _ _ _ _ _ G T H) as (e1 & e' & PT & _ & MG & G').
  destruct (merge_ok _ _ _ _ _ _ MG AP E0) as (j0 & t2 & T2 & CB & Q). cbv zeta in Q. destruct Q as (LJ & VEC & LF & LC & LK & LP & PT' & TE & TC & TK & TP & TF & TS).
  destruct (countBelow_spec _ _ _ CB) as (_ & LJ0 & BEL). rewrite Nat.sub_0_r in LJ0, BEL. destruct (countBelow_stop _ _ _ CB) as (y & Y & NY). rewrite Nat.sub_0_r in Y.
  set (j := (j0 - 1)%nat) in *. set (pre := firstn j (vat t "energy")) in *.
  destruct (nth_error (vat t "energy") j) as [g|] eqn:GJ; [|apply nth_error_None in GJ; toR; lia].
  destruct (nth_error_split _ _ GJ) as (a & rest & EQ & LA).
  assert (PA : pre = a). { unfold pre. rewrite EQ, <- LA. rewrite firstn_app, Nat.sub_diag, firstn_all, app_nil_r. reflexivity. }
  destruct (putTables_state _ _ PT) as (CA1 & _). destruct (putTables_state _ _ PT') as (_ & ME & MU & (L1 & L2 & L3) & _).
  destruct (vec_columns _ _ VEC) as (ts & RM & COL). pose proof (rmapM_nth _ _ RM) as [LT GET'].
  assert (KEYS : forall q, In q (photoShells ++ ["coherent"; "compton"; "pair"; "energy"; "photoelectric"])%list -> vat t2 q = map (fun t => val0 t q) ts).
  { intros q Q. apply COL. intros mu I. apply In_nth_error in I as [m I]. destruct (GET' m mu I) as (z & _ & Z). apply (empty_cache_mu _ _ _ CA1) in Z. exact (@computeMu_keys RNum e1 z mu Z q Q). }
  assert (TE' : vat T2 "energy" = (pre ++ energy)%list).
  { rewrite TE, KEYS by (apply in_or_app; right; cbn; tauto). apply nth_ext with (d := 0) (d' := 0); [rewrite map_length, LT; reflexivity|]. intros m Hm. rewrite map_length in Hm.
    destruct (nth_error ts m) as [mu|] eqn:I; [|apply nth_error_None in I; toR; lia]. rewrite (map_nth_val _ _ _ I). destruct (GET' m mu I) as (z & Z & C). apply (empty_cache_mu _ _ _ CA1) in C.
    apply computeMu_spec in C as (_ & _ & _ & EN & _). toR. rewrite (nth_error_nth _ _ 0 Z). rewrite val0_R. exact (vSome _ _ _ EN). }
  assert (LPRE : length pre = j) by (unfold pre; rewrite firstn_length; toR; lia).
  assert (LTS : length ts = (j + length energy)%nat) by (rewrite LT; toR; rewrite app_length, LPRE; reflexivity).
  assert (COLS : forall q given, In q ["coherent"; "compton"; "pair"; "photoelectric"] -> (length energy <= length given)%nat -> vat T2 q = (firstn j (vat t2 q) ++ firstn (length energy) given)%list ->
    length (vat T2 q) = length (pre ++ energy) /\ skipn j (vat T2 q) = firstn (length energy) given).
  { intros q given Q L ->. assert (LQ : length (firstn j (vat t2 q)) = j). { rewrite firstn_length, KEYS by (apply in_or_app; right; cbn in *; tauto). rewrite map_length. toR. lia. }
    split; [rewrite !app_length, LQ, firstn_length; toR; lia|]. rewrite skipn_app, LQ, Nat.sub_diag. cbn [skipn]. rewrite skipn_all2 by (toR; lia). reflexivity. }
  assert (LTP : length (vat T2 "pair") = length (vat T2 "energy")) by (rewrite TE'; apply (COLS "pair" pr); [cbn; tauto|exact LP|exact TP]).
  exists e', pre, g, rest. split; [exact G'|]. split; [rewrite PA; exact EQ|]. split.
  { rewrite PA, Forall_forall. intros x I. apply In_nth_error in I as [m I]. assert (Lm : (m < length a)%nat) by (apply nth_error_Some; toR; congruence). apply (BEL m); [toR; lia|]. rewrite EQ. rewrite nth_error_app1; [exact I|exact Lm]. }
  split. { destruct j0 as [|j0]; [left; destruct pre; [reflexivity|cbn in LPRE; unfold j in LPRE; lia]|right]. apply (BEL j); [unfold j; lia|exact GJ]. }
  split.
  { intros Lg g' HR. assert (J : j0 <> 0%nat). { intros ->. apply NY. change j with 0%nat in GJ. toR. congruence. }
    assert (S1 : nth_error (vat t "energy") (S j) = Some g'). { rewrite EQ, nth_error_app2 by (toR; lia). replace (S j - length a)%nat with 1%nat by (toR; lia). destruct rest; [discriminate|]. exact HR. }
    replace (S j) with j0 in S1 by (unfold j; lia). assert (y = g') by (toR; congruence). subst. exact NY. }
  unfold getMassAttenuationCoefficients_all. rewrite (MU LTP "energy") by (cbn; tauto). split; [f_equal; exact TE'|].
  intros k v I. exists (vat T2 k). assert (KI : In k ["coherent"; "compton"; "energy"; "pair"; "photoelectric"]) by (cbn in I; destruct I as [I|[I|[I|[I|[]]]]]; injection I as <- <-; cbn; tauto).
  split; [exact (MU LTP k KI)|]. toR. rewrite LPRE. cbn in I. destruct I as [I|[I|[I|[I|[]]]]]; injection I as <- <-; apply COLS; try assumption; try (cbn; tauto); toR; lia.
Qed.
Print Assumptions C71_table.

(** At the energies given, the first (if it is not above the second energy of the data base) and the
    last excepted, the element answers with the coefficients given, and the photoelectric one is
    distributed among the shells as the data base distributes its own. *)
Theorem C71_supplied : forall (lb lb' : library) name (energy photo coherent compton pairv : list R) e t e' e0,
  getElement (lb_es lb) name = Ok e -> getMassAttenuationTables (lb_epdl lb) (el_z e) = Ok t ->
  setMassAttenuationCoefficients lb name energy photo coherent compton pairv = (lb', Ok tt) ->
  getElement (lb_es lb') name = Ok e' ->
  apart energy -> nth_error energy 0 = Some e0 -> 0 < e0 -> Forall (fun y => 0 < y) photo ->
  Forall (fun y => 0 <= y) coherent -> Forall (fun y => 0 <= y) compton -> Forall (fun y => 0 <= y) pairv ->
  Forall (fun g => 0 < g) (column_at t "energy") -> Forall (fun y => 0 <= y) (column_at t "all other") ->
  (forall g, In g (column_at t "energy") -> g < e0 -> g + 1 / 100000 < e0) ->
  forall k x, nth_error energy k = Some x -> (S k < length energy)%nat ->
  (0 < k)%nat \/ (exists g0 g1, nth_error (column_at t "energy") 0 = Some g0 /\ nth_error (column_at t "energy") 1 = Some g1 /\ g0 < e0 /\ g1 < e0) ->
  exists mu, getMassAttenuationCoefficients (el_run false e (takes t)) x = Ok mu /\
    (0 < value_or_0 "photoelectric" mu -> exists mu', getMassAttenuationCoefficients e' x = Ok mu' /\
       value_or_0 "coherent" mu' = nth k coherent 0 /\ value_or_0 "compton" mu' = nth k compton 0 /\ value_or_0 "pair" mu' = nth k pairv 0 /\
       (forall s, In s photo_names -> value_or_0 s mu' = nth k photo 0 * (value_or_0 s mu / value_or_0 "photoelectric" mu)) /\
       value_or_0 "photoelectric" mu' = nth k photo 0).
Proof.
  intros lb lb' name energy photo co cp pr e t e' e0 G T H G' AP E0 P0 PF NC NK NP PG NO GAP k x K SK POS. destruct (setMac_parts _ _ _ _ _ _ _ G T H) as (e1 & e2 & PT & RUN & MG & G2).
  assert (e2 = e') by (apply Ok_inj; rewrite <- G2; exact G'). subst e2. rewrite <- RUN.
  exact (@supplied_at e e1 e' t energy photo co cp pr e0 PT MG AP E0 P0 PG GAP PF NC NK NP NO k x K SK POS).
Qed.
Print Assumptions C71_supplied.

(** Such data are accepted when the element with the tables of the data base answers at the energies
    concerned. *)
Theorem C71_accepted : forall (lb : library) name (energy photo coherent compton pairv : list R) e t e0,
  getElement (lb_es lb) name = Ok e -> getMassAttenuationTables (lb_epdl lb) (el_z e) = Ok t -> all_ok false e (takes t) ->
  apart energy -> nth_error energy 0 = Some e0 -> 0 < e0 ->
  length photo = length energy -> (length energy <= length coherent)%nat -> (length energy <= length compton)%nat -> (length energy <= length pairv)%nat ->
  getBindingEnergies e <> [] ->
  (forall i a b, nth_error (0 :: column_at t "energy") i = Some a -> nth_error (column_at t "energy") i = Some b -> a <= b) ->
  (exists g, In g (column_at t "energy") /\ e0 <= g) ->
  (forall x, In x (column_at t "energy") /\ x < e0 \/ In x energy -> exists mu, getMassAttenuationCoefficients (el_run false e (takes t)) x = Ok mu) ->
  exists lb', setMassAttenuationCoefficients lb name energy photo coherent compton pairv = (lb', Ok tt).
Proof.
  intros lb name energy photo co cp pr e t e0 G T OK AP E0 P0 LF LC LK LP BD RS UP ANS. destruct (get_index _ _ G) as (i & F & E). pose proof (@putTables_back RNum false t e OK) as PT.
  destruct (@merge_accept e (el_run false e (table_calls t)) t energy photo co cp pr e0 PT AP E0 LF LC LK LP BD P0 RS UP ANS) as [e' MG].
  eexists. unfold setMassAttenuationCoefficients. rewrite F, E, T. unfold seqOk. rewrite PT, MG. reflexivity.
Qed.
Print Assumptions C71_accepted.

(** A library and data to which all of the above applies: the data base divides a photoelectric
    coefficient of 2 evenly between "K" and "all other"; so is the 4 given at 20 keV. *)
Theorem C71_example : exists lb' e' mu,
  setMassAttenuationCoefficients mx_library "Fe" [10; 20; 30] [5; 4; 3] [1; 2; 3] [3; 6; 1] [0; 0; 0] = (lb', Ok tt) /\
  getElement (lb_es lb') "Fe" = Ok e' /\ getMassAttenuationCoefficients e' 20 = Ok mu /\
  value_or_0 "photoelectric" mu = 4 /\ value_or_0 "K" mu = 2 /\ value_or_0 "all other" mu = 2 /\ value_or_0 "L3" mu = 0 /\
  value_or_0 "coherent" mu = 2 /\ value_or_0 "compton" mu = 6 /\ value_or_0 "pair" mu = 0.
Proof.
  destruct mx_taken as [e1 PT]. destruct (putTables_run false _ _ PT) as [OK RUN].
  assert (AP : apart [10; 20; 30]) by (intros [|[|[|i]]] a b A B; cbn in A, B; try discriminate; injection A as <-; injection B as <-; lra).
  assert (C0 : column_at mx_table "energy" = mx_grid) by exact (proj1 mx_columns).
  assert (CO : column_at mx_table "all other" = [1; 1; 1; 1]) by exact (proj1 (proj2 (proj2 mx_columns))).
  destruct (@C71_accepted mx_library "Fe" [10; 20; 30] [5; 4; 3] [1; 2; 3] [3; 6; 1] [0; 0; 0] mx_element mx_table 10) as [lb' S]; try reflexivity; try discriminate; try assumption; try lra.
  { rewrite C0. intros [|[|[|[|[|i]]]]] a b A B; cbn in A, B; try discriminate; injection A as <-; injection B as <-; lra. }
  { rewrite C0. exists 100. cbn. split; [tauto|lra]. }
  { rewrite C0. change (takes mx_table) with (table_calls mx_table). rewrite <- RUN. intros x X. destruct (@mx_answer e1 x PT) as (mu & A & _); [|exists mu; exact A]. cbn in X. intuition lra. }
  destruct (@setMac_parts mx_library lb' "Fe" [10; 20; 30] [5; 4; 3] [1; 2; 3] [3; 6; 1] [0; 0; 0] mx_element mx_table eq_refl mx_table_ok S) as (_ & e' & _ & _ & _ & G').
  destruct (@C71_supplied mx_library lb' "Fe" [10; 20; 30] [5; 4; 3] [1; 2; 3] [3; 6; 1] [0; 0; 0] mx_element mx_table e' 10) with (k := 1%nat) (x := 20) as (mu0 & A0 & V); try reflexivity; try assumption; try lra; try (apply Forall_forall; intros y I; cbn in I; intuition lra).
  { rewrite C0. apply Forall_forall. intros g I. cbn in I. intuition lra. }
  { rewrite CO. apply Forall_forall. intros g I. cbn in I. intuition lra. }
  { rewrite C0. intros g I. cbn in I. intuition lra. }
  { cbn. lia. }
  { left. lia. }
  change (takes mx_table) with (table_calls mx_table) in A0. rewrite <- RUN in A0. destruct (@mx_answer e1 20 PT) as (m & A1 & SH); [lra|]. assert (m = mu0) by (apply Ok_inj; rewrite <- A0, <- A1; reflexivity). subst m.
  assert (P : value_or_0 "photoelectric" mu0 = 2).
  { destruct (putTables_state _ _ PT) as (CA1 & _). apply (empty_cache_mu _ _ _ CA1) in A0. apply computeMu_sums in A0 as (P & _). rewrite (vSome _ _ _ P). unfold photo_sum. cbn [map photo_names RSum.Rsum].
    rewrite !SH by (cbn; tauto). unfold mx_share. cbn. lra. }
  rewrite P in V. destruct V as (mu & A & V1 & V2 & V3 & V4 & V5); [lra|]. exists lb', e', mu. cbn [nth] in *.
  assert (Q : forall s, In s photo_names -> value_or_0 s mu = 4 * (mx_share s / 2)) by (intros s I; rewrite V4, SH by exact I; reflexivity).
  split; [exact S|]. split; [exact G'|]. split; [exact A|]. split; [exact V5|]. split; [rewrite Q by (cbn; tauto); unfold mx_share; cbn; lra|]. split; [rewrite Q by (cbn; tauto); unfold mx_share; cbn; lra|].
  split; [rewrite Q by (cbn; tauto); unfold mx_share; cbn; lra|]. auto.
Qed.
Print Assumptions C71_example.
