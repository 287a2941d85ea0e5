(** Shell data files: the subshells after loading. *)
From Coq Require Import Ascii String List ZArith Bool Arith Lia Sorted.
From Verif Require Import Base.Num Base.Res Base.SMap Base.Str Base.Text Base.ListLemmas Model.Shell Model.Specfile Model.EPDL97 Model.Element Model.Elements Model.ElementsFiles
  Spec.MaterialSpec Spec.ElementSpec Spec.FilesSpec Proofs.ElementProofs4 Proofs.FilesProofs.
Import ListNotations.
Set Implicit Arguments.
Local Open Scope string_scope.

Section Shells.
Context {N : Num}.
Variable strtod : text -> num.
Variable lf : bool.
Local Notation table := (list (string * num)).

(** an operation on one subshell: [f] its effect there, on a bound subshell (or any) *)
Record shell_op := mkShellOp {
  so_op : string -> table -> el_op;
  so_set : shell -> table -> shell * res unit;
  so_as : string -> string -> Prop;
  so_bound : element -> string -> bool }.
Definition const_op : shell_op := mkShellOp ESetConst Shell.setShellConstants as_constant (fun _ _ => true).
Definition boundb (e : element) (sub : string) : bool := nltb n0 (val0 (Element.getBindingEnergies e) sub).
Definition rad_op : shell_op := mkShellOp ESetRadMap Shell.setRadiativeTransitions_map as_labelled boundb.
Definition nonrad_op : shell_op := mkShellOp ESetNonMap Shell.setNonradiativeTransitions_map as_labelled boundb.
Definition file_op (o : shell_op) : Prop := o = const_op \/ o = rad_op \/ o = nonrad_op.

Lemma kept_refl e : kept e e. Proof. unfold kept. repeat split. Qed.
Lemma kept_trans a b c : kept a b -> kept b c -> kept a c.
Proof. unfold kept. intros H K. decompose [and] H. decompose [and] K. repeat split; congruence. Qed.

Lemma mset_present_keys {V} (k : string) (v : V) m w : mfind sltb k m = Some w -> map fst (mset sltb k v m) = map fst m.
Proof.
  induction m as [|[k1 v1] m IH]; cbn [mfind mset map fst]; [discriminate|].
  destruct (sltb k1 k) eqn:B; [intros H; cbn [map fst]; now rewrite (IH H)|]. destruct (sltb k k1) eqn:A; [discriminate|]. reflexivity.
Qed.

Lemma onShell_ok (e : element) sub s f fin e' : onShell e sub s f fin = (e', Ok tt) ->
  exists sh sh', s = Ok sh /\ f sh = (sh', Ok tt) /\ e' = fin (with_shells e (mset sltb sub sh' (el_shells e))).
Proof.
  unfold onShell. destruct s as [sh| | |]; try discriminate. destruct (f sh) as [sh' [[]| | |]] eqn:F; try discriminate.
  intros H. injection H as <-. exists sh, sh'. split; [reflexivity|]. split; [exact F|reflexivity].
Qed.

Lemma shell_op_effect o : file_op o -> forall e sub d e', el_call lf e (so_op o sub d) = (e', Ok tt) ->
  exists sh sh', mfind sltb sub (el_shells e) = Some sh /\ so_set o sh d = (sh', Ok tt) /\
    el_shells e' = mset sltb sub sh' (el_shells e) /\ kept e e'.
Proof.
  intros [->|[->| ->]] e sub d e' H; cbn [so_op so_set const_op rad_op nonrad_op el_call] in *.
  - unfold Element.setShellConstants in H. apply onShell_ok in H. destruct H as (sh & sh' & G & F & ->).
    unfold getShell in G. destruct (mfind sltb sub (el_shells e)) as [sh0|] eqn:M; [|discriminate]. injection G as ->.
    exists sh, sh'. split; [reflexivity|]. split; [exact F|]. split; [reflexivity|]. unfold kept. repeat split. cbn. eapply mset_present_keys. exact M.
  - unfold Element.setRadiativeTransitions_map in H. apply onShell_ok in H. destruct H as (sh & sh' & G & F & ->).
    unfold shellGuard in G. destruct (mfind sltb sub (el_binding e)); [|discriminate]. destruct (nleb _ _); [discriminate|].
    destruct (mfind sltb sub (el_shells e)) as [sh0|] eqn:M; [|discriminate]. injection G as ->.
    exists sh, sh'. split; [reflexivity|]. split; [exact F|]. split; [reflexivity|]. unfold kept. repeat split. cbn. eapply mset_present_keys. exact M.
  - unfold Element.setNonradiativeTransitions_map in H. apply onShell_ok in H. destruct H as (sh & sh' & G & F & ->).
    unfold shellGuard in G. destruct (mfind sltb sub (el_binding e)); [|discriminate]. destruct (nleb _ _); [discriminate|].
    destruct (mfind sltb sub (el_shells e)) as [sh0|] eqn:M; [|discriminate]. injection G as ->.
    exists sh, sh'. split; [reflexivity|]. split; [exact F|]. split; [reflexivity|]. unfold kept. repeat split. cbn. eapply mset_present_keys. exact M.
Qed.
Lemma onShell_binding (e : @element N) sub s f fin : (forall e, el_binding (fin e) = el_binding e) -> el_binding (fst (onShell e sub s f fin)) = el_binding e.
Proof. intros F. unfold onShell. destruct s as [sh| | |]; try reflexivity. destruct (f sh) as [sh' [u| | |]]; try reflexivity. cbn [fst]. rewrite F. reflexivity. Qed.
Lemma so_binding o : file_op o -> forall e sub d, el_binding (fst (el_call lf e (so_op o sub d))) = el_binding e.
Proof. intros [->|[->| ->]] e sub d; cbn [so_op const_op rad_op nonrad_op el_call]; apply onShell_binding; reflexivity. Qed.

(** the subshell [sub] after the calls of a file *)
Lemma calls_shells o content n : file_op o -> forall subs i calls bound e, NoDup subs ->
  file_calls strtod (so_op o) bound (so_as o) content n i subs calls -> all_ok lf e calls ->
  kept e (el_run lf e calls) /\
  (forall sub, ~ In sub subs -> mfind sltb sub (el_shells (el_run lf e calls)) = mfind sltb sub (el_shells e)) /\
  forall m sub, nth_error subs m = Some sub -> exists labels rows, scan_is strtod content (i + m) labels rows /\
    ((nth_error rows n = None \/ ~ bound sub) /\ mfind sltb sub (el_shells (el_run lf e calls)) = mfind sltb sub (el_shells e) \/
     exists row d sh sh', nth_error rows n = Some row /\ bound sub /\ is_map d /\ (forall k v, mfind sltb k d = Some v <-> says (so_as o) labels row k v) /\
       mfind sltb sub (el_shells e) = Some sh /\ so_set o sh d = (sh', Ok tt) /\ mfind sltb sub (el_shells (el_run lf e calls)) = Some sh').
Proof.
  intros FO. induction subs as [|s r IH]; intros i calls bound e ND FC OK.
  - inversion FC; subst. cbn. split; [apply kept_refl|]. split; [reflexivity|]. intros [|m] sub H; discriminate.
  - inversion ND as [|x y NI ND']; subst. inversion FC as [|? ? ? ? labels rows SC NO FC'|? ? ? calls' labels rows row d SC RN BD IM SY FC']; subst.
    + destruct (IH _ _ _ _ ND' FC' OK) as (KP & OT & AT). split; [exact KP|]. split; [intros sub H; apply OT; intros Q; apply H; now right|].
      intros [|m] sub H.
      * injection H as <-. rewrite Nat.add_0_r. exists labels, rows. split; [exact SC|]. left. split; [exact NO|]. apply OT. exact NI.
      * rewrite Nat.add_succ_r. exact (AT m sub H).
    + cbn [all_ok] in OK. destruct OK as [O1 OK]. destruct (el_call lf e (so_op o s d)) as [e1 r1] eqn:EC. cbn [fst snd] in O1, OK. subst r1.
      assert (RUN : el_run lf e (so_op o s d :: calls') = el_run lf e1 calls') by (unfold el_run; cbn [fold_left]; rewrite EC; reflexivity).
      destruct (shell_op_effect FO _ _ _ EC) as (sh & sh' & M & F & SH & KP1).
      destruct (IH _ _ _ _ ND' FC' OK) as (KP & OT & AT). rewrite RUN. split; [exact (kept_trans KP1 KP)|]. split.
      * intros sub H. rewrite OT by (intros Q; apply H; now right). rewrite SH. apply sfind_other. intros ->. apply H. now left.
      * intros [|m] sub H.
        -- injection H as <-. rewrite Nat.add_0_r. exists labels, rows. split; [exact SC|]. right. exists row, d, sh, sh'.
           do 6 (split; [assumption|]). rewrite OT by exact NI. rewrite SH. apply smfind_mset_same.
        -- rewrite Nat.add_succ_r. destruct (AT m sub H) as (labels' & rows' & SC' & CASES). exists labels', rows'. split; [exact SC'|].
           assert (NS : sub <> s) by (intros ->; exact (NI (nth_error_In r m H))).
           assert (EQ : mfind sltb sub (el_shells e1) = mfind sltb sub (el_shells e)) by (rewrite SH; apply sfind_other; congruence).
           rewrite EQ in CASES. exact CASES.
Qed.

Lemma constLoop_find : forall l m m', is_map l -> constLoop l m = (m', Ok tt) ->
  (forall k, mfind sltb k m' = match mfind sltb k l with Some v => Some v | None => mfind sltb k m end) /\ (forall k v, In (k, v) l -> mmem sltb k m = true).
Proof.
  induction l as [|[k v] l IH]; intros m m' L E; cbn [constLoop] in E.
  - injection E as <-. split; [reflexivity|]. intros k v [].
  - destruct (mmem sltb k m) eqn:MM; [|discriminate]. unfold is_map in L. cbn [map fst] in L. inversion L as [|x y L' FA]; subst.
    destruct (IH (mset sltb k v m) m' L' E) as (F & P). split.
    + intros q. rewrite F. destruct (mfind sltb q l) as [w|] eqn:FL.
      * assert (KQ : sltb k q = true).
        { rewrite Forall_forall in FA. apply FA. apply (@smfind_In num q w) in FL; [|exact L']. apply (in_map fst) in FL. exact FL. }
        cbn [mfind].
        rewrite KQ. now rewrite FL.
      * cbn [mfind]. destruct (string_dec q k) as [->|NE].
        -- rewrite (@st_irrefl _ _ sltb_total k). apply smfind_mset_same.
        -- rewrite (@sfind_other num k q v m (not_eq_sym NE)). destruct (sltb k q) eqn:KQ; [now rewrite FL|]. destruct (sltb q k) eqn:QK; [reflexivity|].
           exfalso. apply NE. exact (@st_total _ _ sltb_total q k QK KQ).
    + intros q w [Q|Q]; [injection Q as -> ->; exact MM|]. specialize (P q w Q).
      unfold mmem in *. destruct (string_dec q k) as [->|NE]; [exact MM|]. rewrite (@sfind_other num k q v m (not_eq_sym NE)) in P. exact P.
Qed.
End Shells.
