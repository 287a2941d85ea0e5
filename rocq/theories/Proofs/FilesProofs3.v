(** Shell data files: the whole call. *)
From Coq Require Import Ascii String List ZArith Bool Arith Lia Sorted.
From Verif Require Import Base.Num Base.Res Base.SMap Base.Str Base.Text Base.ListLemmas Model.Shell Model.Specfile Model.EPDL97 Model.Element Model.Elements Model.ElementsFiles
  Spec.MaterialSpec Spec.ElementSpec Spec.FilesSpec Proofs.ElementProofs4 Proofs.FilesProofs Proofs.FilesProofs2.
Import ListNotations.
Set Implicit Arguments.
Local Open Scope string_scope.

Section Whole.
Context {N : Num}.
Variable strtod : text -> num.
Variable fs : string -> option text.
Variable lf : bool.
Local Notation table := (list (string * num)).

Definition so_key (o : @shell_op N) (key : string -> option string) : Prop := forall l k, key l = Some k <-> so_as o l k.
Definition so_apply (o : @shell_op N) (apply : string -> element -> table -> element * res unit) : Prop :=
  forall sub e d, apply sub e d = if so_bound o e sub then el_call lf e (so_op o sub d) else (e, Ok tt).
Lemma so_bound_kept o : file_op o -> forall sub e d sub', so_bound o (fst (el_call lf e (so_op o sub d))) sub' = so_bound o e sub'.
Proof.
  intros FO sub e d sub'. pose proof (@so_binding N lf o FO e sub d) as B. destruct FO as [->|[->| ->]]; [reflexivity| |]; cbn [so_bound rad_op nonrad_op];
  unfold boundb, Element.getBindingEnergies; rewrite B; reflexivity.
Qed.
Lemma const_apply : so_apply const_op (fun sub e d => Element.setShellConstants e sub d). Proof. intros sub e d. reflexivity. Qed.
Lemma rad_apply : so_apply rad_op (ifBound Element.setRadiativeTransitions_map). Proof. intros sub e d. reflexivity. Qed.
Lemma nonrad_apply : so_apply nonrad_op (ifBound Element.setNonradiativeTransitions_map). Proof. intros sub e d. reflexivity. Qed.

Lemma main_nodup main subs : In (main, subs) main_shells -> NoDup subs.
Proof.
  cbn. intros [H|[H|[H|[]]]]; injection H as _ <-; repeat constructor; cbn; intuition discriminate.
Qed.

(** the elements after a successful call *)
Lemma shellFile_ok o key apply record lb main file lb' : file_op o -> so_key o key -> so_apply o apply ->
  shellFile strtod fs key apply record lb main file = (lb', Ok tt) ->
  exists subs l', In (main, subs) main_shells /\ getNumberOfScans (setFileName (fs file)) = length subs /\ lb' = record (with_list lb l') /\
    length l' = length (es_list (lb_es lb)) /\
    forall n e, nth_error (es_list (lb_es lb)) n = Some e ->
      exists calls, file_calls strtod (so_op o) (fun s => so_bound o e s = true) (so_as o) (fs file) n 0 subs calls /\ all_ok lf e calls /\
        nth_error l' n = Some (el_run lf e calls).
Proof.
  intros FO KY AP E. unfold shellFile in E. destruct (subShells main) as [subs|] eqn:SU; [|discriminate]. apply subShells_main in SU.
  cbv zeta in E. destruct (Nat.eqb_spec (getNumberOfScans (setFileName (fs file))) (length subs)) as [NS|]; cbn [negb] in E; [|discriminate].
  destruct (fileScans strtod key apply (setFileName (fs file)) 0 subs (es_list (lb_es lb))) as [l' [[]| | |]] eqn:FS; try discriminate.
  injection E as <-. exists subs, l'. split; [exact SU|]. split; [exact NS|]. split; [reflexivity|].
  exact (@fileScans_spec N strtod key (so_as o) KY lf apply (so_op o) (so_bound o) AP (so_bound_kept FO) (fs file) subs 0 _ _ FS).
Qed.

(** the subshells after a successful call *)
Lemma shellFile_shells o key apply record lb main file lb' : file_op o -> so_key o key -> so_apply o apply ->
  shellFile strtod fs key apply record lb main file = (lb', Ok tt) ->
  exists subs l', In (main, subs) main_shells /\ getNumberOfScans (setFileName (fs file)) = length subs /\ lb' = record (with_list lb l') /\
    length l' = length (es_list (lb_es lb)) /\
    forall n e, nth_error (es_list (lb_es lb)) n = Some e -> exists e', nth_error l' n = Some e' /\ kept e e' /\
      (forall sub, ~ In sub subs -> getShell e' sub = getShell e sub) /\
      forall i sub, nth_error subs i = Some sub -> exists labels rows, scan_is strtod (fs file) i labels rows /\
        ((nth_error rows n = None \/ so_bound o e sub <> true) /\ getShell e' sub = getShell e sub \/
         exists row d sh sh', nth_error rows n = Some row /\ so_bound o e sub = true /\ is_map d /\ (forall k v, mfind sltb k d = Some v <-> says (so_as o) labels row k v) /\
           getShell e sub = Ok sh /\ so_set o sh d = (sh', Ok tt) /\ getShell e' sub = Ok sh').
Proof.
  intros FO KY AP E. destruct (shellFile_ok record lb main file FO KY AP E) as (subs & l' & A & B & C & D & F). exists subs, l'. do 4 (split; [assumption|]).
  intros n e Hn. destruct (F n e Hn) as (calls & FC & OK & RUN). exists (el_run lf e calls). split; [exact RUN|].
  destruct (@calls_shells N strtod lf o (fs file) n FO subs 0 calls _ e (main_nodup A) FC OK) as (KP & OT & AT). split; [exact KP|]. split.
  - intros sub H. unfold getShell. now rewrite (OT sub H).
  - intros i sub Hi. destruct (AT i sub Hi) as (labels & rows & SC & [[X Y]|(row & d & sh & sh' & R & BD & IM & SY & M & F1 & M')]);
    exists labels, rows; (split; [exact SC|]); [left|right].
    + split; [exact X|]. unfold getShell. now rewrite Y.
    + exists row, d, sh, sh'. do 4 (split; [assumption|]). unfold getShell. rewrite M, M'. split; [reflexivity|]. split; [exact F1|reflexivity].
Qed.

Lemma setConst_find (sh sh' : shell) (d : table) : is_map d -> Shell.setShellConstants sh d = (sh', Ok tt) ->
  sh' = with_const sh (Shell.getShellConstants sh') /\
  forall k, mfind sltb k (Shell.getShellConstants sh') = match mfind sltb k d with Some v => Some v | None => mfind sltb k (Shell.getShellConstants sh) end.
Proof.
  unfold Shell.setShellConstants, Shell.getShellConstants. intros IM H. destruct (constLoop d (sh_const sh)) as [m r] eqn:C. injection H as <- ->.
  destruct (@constLoop_find N d (sh_const sh) m IM C) as [F _]. split; [reflexivity|]. exact F.
Qed.

(** a refused call changes no element, a failed one records no file *)
Lemma shellFile_refused key apply record lb main file :
  (~ In main ["K"; "L"; "M"] -> shellFile strtod fs key apply record lb main file = (lb, Throw InvalidArgument)) /\
  (forall subs, In (main, subs) main_shells -> getNumberOfScans (setFileName (fs file)) <> length subs ->
     shellFile strtod fs key apply record lb main file = (lb, Throw IosFailure)).
Proof.
  unfold shellFile. split.
  - intros H. apply subShells_none in H. now rewrite H.
  - intros subs H NS. apply subShells_main in H. rewrite H. cbv zeta. apply Nat.eqb_neq in NS. rewrite NS. reflexivity.
Qed.
Lemma shellFile_failed key apply record lb main file lb' r : shellFile strtod fs key apply record lb main file = (lb', r) -> r <> Ok tt ->
  exists l, lb' = with_list lb l.
Proof.
  unfold shellFile. intros H NR.
  assert (ID : exists l, lb = with_list lb l) by (exists (es_list (lb_es lb)); destruct lb as [[? ? ? ? ? ?] ? ? ? ?]; reflexivity).
  destruct (subShells main) as [subs|]; [|injection H as <- <-; exact ID]. cbv zeta in H. destruct (negb _); [injection H as <- <-; exact ID|].
  destruct (fileScans _ _ _ _ _ _ _) as [l [[]| | |]]; injection H as <- <-; [congruence| | |]; exists l; reflexivity.
Qed.

(** the column of atomic numbers plays no role *)
Definition same_but_Z (labels : list string) (row row' : list num) : Prop :=
  length row = length row' /\ forall j l, nth_error labels j = Some l -> l <> "Z" -> nth_error row j = nth_error row' j.
Lemma rowDict_Z key : (forall l, key l <> None -> l <> "Z") -> forall labels row row' j d,
  (forall i l, nth_error labels i = Some l -> l <> "Z" -> nth_error row (j + i) = nth_error row' (j + i)) ->
  rowDict key labels row j d = rowDict key labels row' j d.
Proof.
  intros KZ. induction labels as [|l r IH]; intros row row' j d H; cbn [rowDict]; [reflexivity|].
  assert (T : forall d, rowDict key r row (S j) d = rowDict key r row' (S j) d) by (intros d1; apply IH; intros i l1 Hi Hl; rewrite Nat.add_succ_comm; apply (H (S i) l1 Hi Hl)).
  destruct (key l) as [k|] eqn:K; [|apply T]. unfold vget. specialize (H 0%nat l eq_refl). rewrite Nat.add_0_r in H. rewrite H by (apply KZ; congruence).
  destruct (nth_error row' j); cbn [of_opt rbind]; [apply T|reflexivity].
Qed.
Lemma fileRows_Z key apply : (forall l, key l <> None -> l <> "Z") -> forall labels rows rows' n d l,
  Forall2 (same_but_Z labels) rows rows' -> fileRows key apply labels rows n d l = fileRows key apply labels rows' n d l.
Proof.
  intros KZ labels rows rows' n d l H. revert n d l. induction H as [|row row' r r' [_ HR] _ IH]; intros n d l; cbn [fileRows]; [reflexivity|].
  rewrite (@rowDict_Z key KZ labels row row' 0 d HR). destruct (rowDict key labels row' 0 d); try reflexivity.
  destruct (nth_error l n); [|reflexivity]. destruct (apply e a) as [e' [u| | |]]; try reflexivity. apply IH.
Qed.
Lemma fileScans_Z key apply content content' : (forall l, key l <> None -> l <> "Z") ->

  forall subs i l,
  (forall m, (m < length subs)%nat -> exists labels rows rows', scan_is strtod content (i + m) labels rows /\ scan_is strtod content' (i + m) labels rows' /\ Forall2 (same_but_Z labels) rows rows') ->
  fileScans strtod key apply (setFileName content) i subs l = fileScans strtod key apply (setFileName content') i subs l.
Proof.
  intros KZ. induction subs as [|s r IH]; intros i l H; cbn [fileScans]; [reflexivity|].
  destruct (H 0%nat) as (labels & rows & rows' & [A1 A2] & [B1 B2] & F2); [cbn; lia|]. rewrite Nat.add_0_r in *. rewrite A1, A2, B1, B2.
  assert (LN : forall k, match nth_error rows k, nth_error rows' k with Some a, Some b => length a = length b | None, None => True | _, _ => False end).
  { clear -F2. induction F2 as [|a b x y [L _] _ IH]; intros [|k]; cbn; try exact I; [exact L|apply IH]. }
  specialize (LN i). destruct (nth_error rows i) as [a|], (nth_error rows' i) as [b|]; try contradiction; [|reflexivity]. rewrite LN.
  destruct (negb _); [reflexivity|]. rewrite (@fileRows_Z key (apply s) KZ labels rows rows' 0 [] l F2). destruct (fileRows _ _ _ _ _ _ _) as [l1 [u| | |]]; try reflexivity.
  apply IH. intros m Hm. rewrite Nat.add_succ_comm. apply H. cbn [length]. lia.
Qed.
End Whole.
