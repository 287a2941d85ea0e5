(** C68: shell data files. *)
From Coq Require Import Ascii String List ZArith Bool Arith Lia Reals.
From Verif Require Import Base.Num Base.Res Base.SMap Base.Str Base.Text Base.ListLemmas Model.Shell Model.Specfile Model.EPDL97 Model.Element Model.Elements Model.ElementsFiles
  Spec.MaterialSpec Spec.ElementSpec Spec.FilesSpec Proofs.ElementProofs4 Proofs.FilesProofs Proofs.FilesProofs2 Proofs.FilesProofs3 Proofs.FilesProofs4.
Import ListNotations.
Set Implicit Arguments.
Local Close Scope Q_scope.
Local Open Scope string_scope.

(** A shell constants file that loads: scan i is for the i-th subshell of the main shell, row n of it for
    the n-th element; the constants the row names take its values, the others keep theirs; nothing else
    of any element changes but its caches; the name of the file is remembered. *)
Theorem C68_constants {N : Num} (strtod : text -> num) fs lb main file lb' :
  setShellConstantsFile strtod fs lb main file = (lb', Ok tt) ->
  exists subs, In (main, subs) main_shells /\ getNumberOfScans (setFileName (fs file)) = length subs /\
    getShellConstantsFile lb' main = Ok file /\ (forall m, m <> main -> getShellConstantsFile lb' m = getShellConstantsFile lb m) /\
    lb_rad lb' = lb_rad lb /\ lb_nonrad lb' = lb_nonrad lb /\ lb_epdl lb' = lb_epdl lb /\
    (exists l', lb_es lb' = with_elements (lb_es lb) (es_dict (lb_es lb)) l' /\ length l' = length (es_list (lb_es lb))) /\
    forall n e, nth_error (es_list (lb_es lb)) n = Some e -> exists e', nth_error (es_list (lb_es lb')) n = Some e' /\ kept e e' /\
      (forall sub, ~ In sub subs -> getShell e' sub = getShell e sub) /\
      forall i sub, nth_error subs i = Some sub -> exists labels rows, scan_is strtod (fs file) i labels rows /\
        match nth_error rows n with
        | None => getShell e' sub = getShell e sub
        | Some row => exists c c', getShellConstants e sub = Ok c /\ getShellConstants e' sub = Ok c' /\
            getRadiativeTransitions e' sub = getRadiativeTransitions e sub /\ getNonradiativeTransitions e' sub = getNonradiativeTransitions e sub /\
            forall k v, mfind sltb k c' = Some v <->
              says as_constant labels row k v \/ (forall w, ~ says as_constant labels row k w) /\ mfind sltb k c = Some v
        end.
Proof.
  intros E. unfold setShellConstantsFile in E.
  destruct (@shellFile_shells N strtod fs false const_op constantKey _ _ lb main file lb' (or_introl eq_refl) constantKey_iff (@const_apply N false) E)
    as (subs & l' & A & B & -> & LN & F).
  exists subs. split; [exact A|]. split; [exact B|]. cbn [with_list lb_es lb_epdl lb_const lb_rad lb_nonrad].
  split; [unfold getShellConstantsFile, fileOf; cbn; now rewrite smfind_mset_same|].
  split; [intros m NM; unfold getShellConstantsFile, fileOf; cbn; now rewrite sfind_other by congruence|].
  do 3 (split; [reflexivity|]). split; [exists l'; split; [reflexivity|exact LN]|].
  intros n e Hn. destruct (F n e Hn) as (e' & E' & KP & OT & AT). exists e'. split; [exact E'|]. split; [exact KP|]. split; [exact OT|].
  intros i sub Hi. destruct (AT i sub Hi) as (labels & rows & SC & [[[NR|NB] SA]|(row & d & sh & sh' & R & _ & IM & SY & G & F1 & G')]);
  exists labels, rows; (split; [exact SC|]).
  - rewrite NR. exact SA.
  - exfalso. apply NB. reflexivity.
  - rewrite R. cbn [so_set so_as const_op] in F1, SY. destruct (@setConst_find N sh sh' d IM F1) as [SH FD].
    exists (Shell.getShellConstants sh), (Shell.getShellConstants sh').
    unfold getShellConstants, getRadiativeTransitions, getNonradiativeTransitions. rewrite G, G'. cbn [rmap rbind].
    split; [reflexivity|]. split; [reflexivity|]. split; [rewrite SH; reflexivity|]. split; [rewrite SH; reflexivity|].
    intros k v. rewrite FD. destruct (mfind sltb k d) as [w|] eqn:D.
    + split; [intros H; injection H as <-; left; now apply SY|]. intros [H|[H _]]; [apply SY in H; congruence|]. exfalso. apply (H w). now apply SY.
    + split; [intros H; right; split; [intros w W; apply SY in W; congruence|exact H]|]. intros [H|[_ H]]; [apply SY in H; congruence|exact H].
Qed.
Print Assumptions C68_constants.

(** Files of radiative and non-radiative transitions: row n of scan i is set, as by a call of the setter of
    the subshell, if the subshell has a positive binding energy; otherwise the subshell is left alone. *)
Theorem C68_radiative {N : Num} (strtod : text -> num) fs lb main file lb' :
  setShellRadiativeTransitionsFile strtod fs lb main file = (lb', Ok tt) ->
  exists subs, In (main, subs) main_shells /\ getNumberOfScans (setFileName (fs file)) = length subs /\
    getShellRadiativeTransitionsFile lb' main = Ok file /\ (forall m, m <> main -> getShellRadiativeTransitionsFile lb' m = getShellRadiativeTransitionsFile lb m) /\
    lb_const lb' = lb_const lb /\ lb_nonrad lb' = lb_nonrad lb /\ lb_epdl lb' = lb_epdl lb /\
    (exists l', lb_es lb' = with_elements (lb_es lb) (es_dict (lb_es lb)) l' /\ length l' = length (es_list (lb_es lb))) /\
    forall n e, nth_error (es_list (lb_es lb)) n = Some e -> exists e', nth_error (es_list (lb_es lb')) n = Some e' /\ kept e e' /\
      (forall sub, ~ In sub subs -> getShell e' sub = getShell e sub) /\
      forall i sub, nth_error subs i = Some sub -> exists labels rows, scan_is strtod (fs file) i labels rows /\
        match nth_error rows n, nltb n0 (val0 (getBindingEnergies e) sub) with
        | Some row, true => exists d sh sh', is_map d /\ (forall k v, mfind sltb k d = Some v <-> says as_labelled labels row k v) /\
            getShell e sub = Ok sh /\ Shell.setRadiativeTransitions_map sh d = (sh', Ok tt) /\ getShell e' sub = Ok sh'
        | _, _ => getShell e' sub = getShell e sub
        end.
Proof.
  intros E. unfold setShellRadiativeTransitionsFile in E.
  destruct (@shellFile_shells N strtod fs false rad_op transitionKey _ _ lb main file lb' (or_intror (or_introl eq_refl)) transitionKey_iff (@rad_apply N false) E)
    as (subs & l' & A & B & -> & LN & F).
  exists subs. split; [exact A|]. split; [exact B|]. cbn [with_list lb_es lb_epdl lb_const lb_rad lb_nonrad].
  split; [unfold getShellRadiativeTransitionsFile, fileOf; cbn; now rewrite smfind_mset_same|].
  split; [intros m NM; unfold getShellRadiativeTransitionsFile, fileOf; cbn; now rewrite sfind_other by congruence|].
  do 3 (split; [reflexivity|]). split; [exists l'; split; [reflexivity|exact LN]|].
  intros n e Hn. destruct (F n e Hn) as (e' & E' & KP & OT & AT). exists e'. split; [exact E'|]. split; [exact KP|]. split; [exact OT|].
  intros i sub Hi. destruct (AT i sub Hi) as (labels & rows & SC & [[[NR|NB] SA]|(row & d & sh & sh' & R & BD & IM & SY & G & F1 & G')]);
  exists labels, rows; (split; [exact SC|]).
  - rewrite NR. exact SA.
  - destruct (nth_error rows n); [|exact SA]. cbn [so_bound rad_op] in NB. unfold boundb in NB. destruct (nltb n0 (val0 (getBindingEnergies e) sub)); [congruence|exact SA].
  - rewrite R. cbn [so_bound rad_op] in BD. unfold boundb in BD. rewrite BD. exists d, sh, sh'. repeat split; try assumption; apply SY.
Qed.
Print Assumptions C68_radiative.
Theorem C68_nonradiative {N : Num} (strtod : text -> num) fs lb main file lb' :
  setShellNonradiativeTransitionsFile strtod fs lb main file = (lb', Ok tt) ->
  exists subs, In (main, subs) main_shells /\ getNumberOfScans (setFileName (fs file)) = length subs /\
    getShellNonradiativeTransitionsFile lb' main = Ok file /\ (forall m, m <> main -> getShellNonradiativeTransitionsFile lb' m = getShellNonradiativeTransitionsFile lb m) /\
    lb_const lb' = lb_const lb /\ lb_rad lb' = lb_rad lb /\ lb_epdl lb' = lb_epdl lb /\
    (exists l', lb_es lb' = with_elements (lb_es lb) (es_dict (lb_es lb)) l' /\ length l' = length (es_list (lb_es lb))) /\
    forall n e, nth_error (es_list (lb_es lb)) n = Some e -> exists e', nth_error (es_list (lb_es lb')) n = Some e' /\ kept e e' /\
      (forall sub, ~ In sub subs -> getShell e' sub = getShell e sub) /\
      forall i sub, nth_error subs i = Some sub -> exists labels rows, scan_is strtod (fs file) i labels rows /\
        match nth_error rows n, nltb n0 (val0 (getBindingEnergies e) sub) with
        | Some row, true => exists d sh sh', is_map d /\ (forall k v, mfind sltb k d = Some v <-> says as_labelled labels row k v) /\
            getShell e sub = Ok sh /\ Shell.setNonradiativeTransitions_map sh d = (sh', Ok tt) /\ getShell e' sub = Ok sh'
        | _, _ => getShell e' sub = getShell e sub
        end.
Proof.
  intros E. unfold setShellNonradiativeTransitionsFile in E.
  destruct (@shellFile_shells N strtod fs false nonrad_op transitionKey _ _ lb main file lb' (or_intror (or_intror eq_refl)) transitionKey_iff (@nonrad_apply N false) E)
    as (subs & l' & A & B & -> & LN & F).
  exists subs. split; [exact A|]. split; [exact B|]. cbn [with_list lb_es lb_epdl lb_const lb_rad lb_nonrad].
  split; [unfold getShellNonradiativeTransitionsFile, fileOf; cbn; now rewrite smfind_mset_same|].
  split; [intros m NM; unfold getShellNonradiativeTransitionsFile, fileOf; cbn; now rewrite sfind_other by congruence|].
  do 3 (split; [reflexivity|]). split; [exists l'; split; [reflexivity|exact LN]|].
  intros n e Hn. destruct (F n e Hn) as (e' & E' & KP & OT & AT). exists e'. split; [exact E'|]. split; [exact KP|]. split; [exact OT|].
  intros i sub Hi. destruct (AT i sub Hi) as (labels & rows & SC & [[[NR|NB] SA]|(row & d & sh & sh' & R & BD & IM & SY & G & F1 & G')]);
  exists labels, rows; (split; [exact SC|]).
  - rewrite NR. exact SA.
  - destruct (nth_error rows n); [|exact SA]. cbn [so_bound nonrad_op] in NB. unfold boundb in NB. destruct (nltb n0 (val0 (getBindingEnergies e) sub)); [congruence|exact SA].
  - rewrite R. cbn [so_bound nonrad_op] in BD. unfold boundb in BD. rewrite BD. exists d, sh, sh'. repeat split; try assumption; apply SY.
Qed.
Print Assumptions C68_nonradiative.

(** The elements a file leaves are those of a history of calls of the public setters, all successful, by
    which anything proved for histories of an element applies to it. *)
Theorem C68_history {N : Num} lf (strtod : text -> num) fs lb main file lb' :
  (setShellConstantsFile strtod fs lb main file = (lb', Ok tt) \/ setShellRadiativeTransitionsFile strtod fs lb main file = (lb', Ok tt) \/
   setShellNonradiativeTransitionsFile strtod fs lb main file = (lb', Ok tt)) ->
  length (es_list (lb_es lb')) = length (es_list (lb_es lb)) /\
  forall n e, nth_error (es_list (lb_es lb)) n = Some e -> exists calls, all_ok lf e calls /\ nth_error (es_list (lb_es lb')) n = Some (el_run lf e calls) /\
    Forall (fun o => exists sub d, In sub (flat_map snd main_shells) /\ In o [ESetConst sub d; ESetRadMap sub d; ESetNonMap sub d]) calls.
Proof.
  assert (G : forall o key apply record, file_op o -> so_key o key -> so_apply lf o apply -> (forall lb, lb_es (record lb) = lb_es lb) ->
    (forall sub d, In (so_op o sub d) [ESetConst sub d; ESetRadMap sub d; ESetNonMap sub d]) ->
    shellFile strtod fs key apply record lb main file = (lb', Ok tt) ->
    length (es_list (lb_es lb')) = length (es_list (lb_es lb)) /\
    forall n e, nth_error (es_list (lb_es lb)) n = Some e -> exists calls, all_ok lf e calls /\ nth_error (es_list (lb_es lb')) n = Some (el_run lf e calls) /\
      Forall (fun o => exists sub d, In sub (flat_map snd main_shells) /\ In o [ESetConst sub d; ESetRadMap sub d; ESetNonMap sub d]) calls).
  { intros o key apply record FO KY AP RE OP E. destruct (@shellFile_ok N strtod fs lf o key apply record lb main file lb' FO KY AP E) as (subs & l' & A & B & -> & LN & F).
    rewrite RE. cbn [with_list lb_es with_elements es_list]. split; [exact LN|]. intros n e Hn. destruct (F n e Hn) as (calls & FC & OK & RUN).
    exists calls. split; [exact OK|]. split; [exact RUN|].
    assert (IS : forall s, In s subs -> In s (flat_map snd main_shells)) by (intros s Hs; apply in_flat_map; exists (main, subs); split; [exact A|exact Hs]).
    clear -FC IS OP. induction FC as [i|i sub subs calls labels rows SC NO _ IH|i sub subs calls labels rows row d SC R BD S SY _ IH].
    - constructor.
    - apply IH. intros s Hs. apply IS. now right.
    - constructor; [exists sub, d; split; [apply IS; now left|apply OP]|]. apply IH. intros s Hs. apply IS. now right. }
  intros [E|[E|E]].
  - apply (G const_op constantKey (fun sub e d => setShellConstants e sub d) _ (or_introl eq_refl) constantKey_iff (@const_apply N lf)) in E; [exact E|reflexivity|intros; cbn; tauto].
  - apply (G rad_op transitionKey (ifBound setRadiativeTransitions_map) _ (or_intror (or_introl eq_refl)) transitionKey_iff (@rad_apply N lf)) in E; [exact E|reflexivity|intros; cbn; tauto].
  - apply (G nonrad_op transitionKey (ifBound setNonradiativeTransitions_map) _ (or_intror (or_intror eq_refl)) transitionKey_iff (@nonrad_apply N lf)) in E; [exact E|reflexivity|intros; cbn; tauto].
Qed.
Print Assumptions C68_history.

(** Refused: a name that is not K, L or M; a file without exactly one scan for each subshell (a missing
    file has none). Nothing changes. Whatever the failure, no file name is recorded. *)
Theorem C68_refused {N : Num} (strtod : text -> num) fs lb main file :
  (~ In main ["K"; "L"; "M"] ->
     setShellConstantsFile strtod fs lb main file = (lb, Throw InvalidArgument) /\
     setShellRadiativeTransitionsFile strtod fs lb main file = (lb, Throw InvalidArgument) /\
     setShellNonradiativeTransitionsFile strtod fs lb main file = (lb, Throw InvalidArgument)) /\
  (forall subs, In (main, subs) main_shells -> getNumberOfScans (setFileName (fs file)) <> length subs ->
     setShellConstantsFile strtod fs lb main file = (lb, Throw IosFailure) /\
     setShellRadiativeTransitionsFile strtod fs lb main file = (lb, Throw IosFailure) /\
     setShellNonradiativeTransitionsFile strtod fs lb main file = (lb, Throw IosFailure)) /\
  (fs file = None -> In main ["K"; "L"; "M"] -> setShellConstantsFile strtod fs lb main file = (lb, Throw IosFailure)) /\
  (forall call lb' r, In call [setShellConstantsFile strtod fs; setShellRadiativeTransitionsFile strtod fs; setShellNonradiativeTransitionsFile strtod fs] ->
     call lb main file = (lb', r) -> r <> Ok tt ->
     lb_const lb' = lb_const lb /\ lb_rad lb' = lb_rad lb /\ lb_nonrad lb' = lb_nonrad lb /\ lb_epdl lb' = lb_epdl lb /\ es_dict (lb_es lb') = es_dict (lb_es lb)).
Proof.
  split; [|split; [|split]].
  - intros H. repeat split; apply shellFile_refused; exact H.
  - intros subs A B. repeat split; eapply shellFile_refused; eassumption.
  - intros FN H. (destruct (subShells main) as [subs|] eqn:SU; [|apply subShells_none in SU; contradiction]).
    apply subShells_main in SU. eapply (proj2 (shellFile_refused strtod fs _ _ _ lb main file)); [exact SU|]. rewrite FN. cbn.
    cbn in SU. destruct SU as [H1|[H1|[H1|[]]]]; injection H1 as _ <-; discriminate.
  - intros call lb' r [<-|[<-|[<-|[]]]] E NR; apply shellFile_failed in E; try exact NR; destruct E as [l ->]; repeat split.
Qed.
Print Assumptions C68_refused.

(** The rows are taken by position: the column of atomic numbers has no effect whatever. *)
Theorem C68_atomic_numbers_ignored {N : Num} (strtod : text -> num) fs fs' lb main subs file :
  In (main, subs) main_shells ->
  getNumberOfScans (setFileName (fs file)) = length subs -> getNumberOfScans (setFileName (fs' file)) = length subs ->
  (forall i, (i < length subs)%nat -> exists labels rows rows', scan_is strtod (fs file) i labels rows /\ scan_is strtod (fs' file) i labels rows' /\
     Forall2 (fun row row' => length row = length row' /\ forall j l, nth_error labels j = Some l -> l <> "Z" -> nth_error row j = nth_error row' j) rows rows') ->
  setShellConstantsFile strtod fs lb main file = setShellConstantsFile strtod fs' lb main file /\
  setShellRadiativeTransitionsFile strtod fs lb main file = setShellRadiativeTransitionsFile strtod fs' lb main file /\
  setShellNonradiativeTransitionsFile strtod fs lb main file = setShellNonradiativeTransitionsFile strtod fs' lb main file.
Proof.
  intros A B B' H. assert (SU := proj2 (subShells_main main subs) A).
  assert (G : forall key apply record, (forall l, key l <> None -> l <> "Z") -> shellFile strtod fs key apply record lb main file = shellFile strtod fs' key apply record lb main file).
  { intros key apply record KZ. unfold shellFile. rewrite SU. cbv zeta. rewrite B, B', Nat.eqb_refl. cbn [negb].
    rewrite (@fileScans_Z N strtod key apply (fs file) (fs' file) KZ subs 0 (es_list (lb_es lb))); [reflexivity|]. exact H. }
  assert (K1 : forall l, constantKey l <> None -> l <> "Z") by (intros l Hl ->; apply Hl; reflexivity).
  assert (K2 : forall l, transitionKey l <> None -> l <> "Z") by (intros l Hl ->; apply Hl; reflexivity).
  repeat split; apply G; assumption.
Qed.
Print Assumptions C68_atomic_numbers_ignored.

(** A constants file loads if it has one scan per subshell, rows as long as the labels, more rows in scan
    i than i and no more than there are elements, and labels that the subshells of the elements know. *)
Theorem C68_loads {N : Num} (strtod : text -> num) fs lb main subs file labels rows :
  In (main, subs) main_shells -> getNumberOfScans (setFileName (fs file)) = length subs ->
  (forall i, (i < length subs)%nat -> scan_is strtod (fs file) i (labels i) (rows i) /\ Forall (fun r => length r = length (labels i)) (rows i) /\
     (i < length (rows i) <= length (es_list (lb_es lb)))%nat) ->
  (forall e i sub, In e (es_list (lb_es lb)) -> nth_error subs i = Some sub -> exists sh, getShell e sub = Ok sh /\
     forall l k, In l (labels i) -> as_constant l k -> exists v, mfind sltb k (Shell.getShellConstants sh) = Some v) ->
  snd (setShellConstantsFile strtod fs lb main file) = Ok tt.
Proof.
  intros A B SC K. unfold setShellConstantsFile, shellFile. rewrite (proj2 (subShells_main main subs) A). cbv zeta. rewrite B, Nat.eqb_refl. cbn [negb].
  destruct (@const_total N strtod (fs file) subs labels rows (main_nodup fs A) subs 0 (es_list (lb_es lb))) as [l' ->].
  - reflexivity.
  - exact SC.
  - apply Forall_forall. intros e He i sub Hi. exact (K e i sub He Hi).
  - reflexivity.
Qed.
Print Assumptions C68_loads.

(** Example: two elements with K shells, a file with one row for each, in the order of the list. The
    second row has the wrong atomic number. *)
Section Example.
Local Existing Instance RNum.
Definition ex_element (name : string) (z : Z) (b : R) : element :=
  match element_new name z with Ok e => fst (setBindingEnergies e [("K", b)]) | _ => element_default end.
Definition ex_lib : library :=
  mkLibrary (addElement (addElement elements_empty (ex_element "H" 1 1%R)) (ex_element "He" 2 2%R)) epdl_new noFiles noFiles noFiles.
Definition ex_lines (l : list string) : text := flat_map (fun s => list_ascii_of_string s ++ [newline])%list l.
Definition ex_fs (name : string) : option text :=
  if String.eqb name "k.dat" then Some (ex_lines ["#S 1 K"; "#L Z  omegaK"; "1 0.25"; "9 0.5"]) else None.
Theorem C68_example (strtod : text -> R) :
  exists lb', setShellConstantsFile strtod ex_fs ex_lib "K" "k.dat" = (lb', Ok tt) /\
    getShellConstantsFile lb' "K" = Ok "k.dat" /\ getShellConstantsFile lb' "L" = Ok "" /\ getElementNames (lb_es lb') = ["H"; "He"] /\
    (exists e, getElement (lb_es lb') "H" = Ok e /\ exists c, getShellConstants e "K" = Ok c /\ mfind sltb "omega" c = Some (strtod (list_ascii_of_string "0.25"))) /\
    (exists e, getElement (lb_es lb') "He" = Ok e /\ exists c, getShellConstants e "K" = Ok c /\ mfind sltb "omega" c = Some (strtod (list_ascii_of_string "0.5"))) /\
    setShellConstantsFile strtod ex_fs ex_lib "L" "k.dat" = (ex_lib, Throw IosFailure) /\
    setShellConstantsFile strtod ex_fs ex_lib "L1" "k.dat" = (ex_lib, Throw InvalidArgument).
Proof.
  eexists. split; [vm_compute; reflexivity|]. split; [reflexivity|]. split; [reflexivity|]. split; [reflexivity|].
  split; [eexists; split; [reflexivity|]; eexists; split; reflexivity|]. split; [eexists; split; [reflexivity|]; eexists; split; reflexivity|].
  split; reflexivity.
Qed.
End Example.
Print Assumptions C68_example.
