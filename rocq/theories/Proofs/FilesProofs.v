(** Shell data files: which numbers go to which element. *)
From Coq Require Import Ascii String List ZArith Bool Arith Lia.
From Verif Require Import Base.Num Base.Res Base.SMap Base.Str Base.Text Base.ListLemmas Model.Shell Model.Specfile Model.EPDL97 Model.Element Model.Elements Model.ElementsFiles
  Spec.MaterialSpec Spec.ElementSpec Spec.FilesSpec.
Import ListNotations.
Set Implicit Arguments.
Local Open Scope string_scope.

Section Rows.
Context {N : Num}.
Variable strtod : text -> num.
Variables (key : string -> option string) (as_ : string -> string -> Prop).
Hypothesis KEY : forall l k, key l = Some k <-> as_ l k.

Lemma rowDict_spec : forall labels row j d d', is_map d -> rowDict key labels row j d = Ok d' ->
  is_map d' /\ forall k,
   (exists j0 l v, nth_error labels j0 = Some l /\ key l = Some k /\ nth_error row (j + j0) = Some v /\ mfind sltb k d' = Some v /\
     forall j' l', (j0 < j')%nat -> nth_error labels j' = Some l' -> key l' <> Some k) \/
   ((forall l, In l labels -> key l <> Some k) /\ mfind sltb k d' = mfind sltb k d).
Proof.
  induction labels as [|l r IH]; intros row j d d' S E; cbn [rowDict] in E.
  - injection E as <-. split; [exact S|]. intros k. right. split; [intros l []|reflexivity].
  - assert (STEP : forall d1, is_map d1 -> rowDict key r row (Datatypes.S j) d1 = Ok d' ->
      (forall k, mfind sltb k d1 = mfind sltb k d \/ (key l = Some k /\ exists v, nth_error row j = Some v /\ mfind sltb k d1 = Some v)) ->
      (forall k, key l = Some k -> exists v, nth_error row j = Some v /\ mfind sltb k d1 = Some v) ->
      is_map d' /\ forall k,
       (exists j0 l0 v, nth_error (l :: r) j0 = Some l0 /\ key l0 = Some k /\ nth_error row (j + j0) = Some v /\ mfind sltb k d' = Some v /\
         forall j' l', (j0 < j')%nat -> nth_error (l :: r) j' = Some l' -> key l' <> Some k) \/
       ((forall l0, In l0 (l :: r) -> key l0 <> Some k) /\ mfind sltb k d' = mfind sltb k d)).
    { intros d1 S1 E1 D1 D2. destruct (IH _ _ _ _ S1 E1) as [S' F]. split; [exact S'|]. intros k.
      destruct (F k) as [(j0 & l0 & v & A & B & C & D & G)|[A B]].
      - left. exists (Datatypes.S j0), l0, v. split; [exact A|]. split; [exact B|]. split; [rewrite Nat.add_succ_r; exact C|]. split; [exact D|].
        intros [|j'] l' Hj Hl; [lia|]. apply (G j' l'); [lia|exact Hl].
      - destruct (key l) as [kl|] eqn:KL.
        + destruct (string_dec kl k) as [->|NE].
          * left. destruct (D2 k eq_refl) as (v & V1 & V2). exists O, l, v. split; [reflexivity|]. split; [exact KL|]. split; [rewrite Nat.add_0_r; exact V1|].
            split; [rewrite B; exact V2|]. intros [|j'] l' Hj Hl; [lia|]. apply A. exact (nth_error_In r j' Hl).
          * right. split.
            -- intros l0 [<-|I]; [rewrite KL; congruence|exact (A l0 I)].
            -- rewrite B. destruct (D1 k) as [Q|[Q _]]; [exact Q|congruence].
        + right. split.
          * intros l0 [<-|I]; [rewrite KL; discriminate|exact (A l0 I)].
          * rewrite B. destruct (D1 k) as [Q|[Q _]]; [exact Q|congruence]. }
    destruct (key l) as [kl|] eqn:KL.
    + unfold vget in E. destruct (nth_error row j) as [v|] eqn:V; cbn [of_opt rbind] in E; [|discriminate].
      apply (STEP (mset sltb kl v d)); [exact (@smset_sorted num kl v d S)|exact E| |].
      * intros k. destruct (string_dec kl k) as [->|NE].
        -- right. split; [reflexivity|]. exists v. split; [reflexivity|]. apply smfind_mset_same.
        -- left. apply smfind_mset_other; [congruence|exact S].
      * intros k Q. injection Q as <-. exists v. split; [reflexivity|]. apply smfind_mset_same.
    + apply (STEP d); [exact S|exact E| |].
      * intros k. left. reflexivity.
      * intros k Q. discriminate.
Qed.

(** all keys of a dictionary built so far are named by a label *)
Definition labelled (labels : list string) (d : list (string * num)) : Prop :=
  is_map d /\ forall k v, mfind sltb k d = Some v -> exists l, In l labels /\ key l = Some k.

Lemma rowDict_says labels row d d' : labelled labels d -> rowDict key labels row 0 d = Ok d' ->
  labelled labels d' /\ is_map d' /\ forall k v, mfind sltb k d' = Some v <-> says as_ labels row k v.
Proof.
  intros [S L] E. destruct (rowDict_spec _ _ _ S E) as [S' F].
  assert (Q : forall k v, mfind sltb k d' = Some v <-> says as_ labels row k v).
  { intros k v. destruct (F k) as [(j0 & l & w & A & B & C & D & G)|[A B]].
    - split.
      + intros H. rewrite D in H. injection H as ->. exists j0, l. split; [exact A|]. split; [apply KEY; exact B|]. split; [exact C|].
        intros j' l' Hj Hl HA. apply (G j' l' Hj Hl). apply KEY. exact HA.
      + intros (j1 & l1 & A1 & B1 & C1 & G1). apply KEY in B1. destruct (Nat.lt_trichotomy j0 j1) as [Hlt|[->|Hgt]].
        * exfalso. exact (G j1 l1 Hlt A1 B1).
        * cbn [Nat.add] in C. rewrite D. rewrite C in C1. exact C1.
        * exfalso. apply (G1 j0 l Hgt A). apply KEY. exact B.
    - split.
      + intros H. exfalso. rewrite B in H. destruct (L k v H) as (l & I & K). exact (A l I K).
      + intros (j1 & l1 & A1 & B1 & _). exfalso. apply KEY in B1. exact (A l1 (nth_error_In _ _ A1) B1). }
  split; [|split; [exact S'|exact Q]]. split; [exact S'|]. intros k v H. apply Q in H. destruct H as (j & l & A & B & _).
  exists l. split; [exact (nth_error_In _ _ A)|]. apply KEY. exact B.
Qed.

Lemma set_nth_same {A} (l : list A) : forall n x, (n < length l)%nat -> nth_error (set_nth l n x) n = Some x.
Proof. induction l as [|a l IH]; intros [|n] x H; cbn in *; try lia; [reflexivity|]. apply IH. lia. Qed.
Lemma set_nth_other {A} (l : list A) : forall n m x, n <> m -> nth_error (set_nth l n x) m = nth_error l m.
Proof. induction l as [|a l IH]; intros [|n] [|m] x H; cbn; try reflexivity; try congruence. apply IH. congruence. Qed.
Lemma set_nth_len {A} (l : list A) : forall n x, length (set_nth l n x) = length l.
Proof. induction l as [|a l IH]; intros [|n] x; cbn; try reflexivity. now rewrite IH. Qed.

(** the rows of a scan *)
Lemma fileRows_spec (apply : element -> list (string * num) -> element * res unit) labels :
  forall rows n d l l', labelled labels d -> fileRows key apply labels rows n d l = (l', Ok tt) ->
  length l' = length l /\ (length rows <> 0 -> n + length rows <= length l)%nat /\
  (forall m, (m < n)%nat -> nth_error l' m = nth_error l m) /\
  forall m, match nth_error rows m, nth_error l (n + m) with
            | Some row, Some e => exists d1 e', is_map d1 /\ (forall k v, mfind sltb k d1 = Some v <-> says as_ labels row k v) /\
                                    apply e d1 = (e', Ok tt) /\ nth_error l' (n + m) = Some e'
            | Some _, None => False
            | None, _ => nth_error l' (n + m) = nth_error l (n + m)
            end.
Proof.
  induction rows as [|row r IH]; intros n d l l' LB E; cbn [fileRows] in E.
  - injection E as <-. repeat split; try lia; [cbn; lia|]. intros [|m]; reflexivity.
  - destruct (rowDict key labels row 0 d) as [d1| | |] eqn:RD; try discriminate.
    destruct (rowDict_says _ LB RD) as (LB1 & S1 & Q1).
    destruct (nth_error l n) as [e|] eqn:NE; [|discriminate].
    destruct (apply e d1) as [e' [[]| | |]] eqn:AP; try discriminate.
    assert (NL : (n < length l)%nat) by (apply nth_error_Some; congruence).
    destruct (IH _ _ _ _ LB1 E) as (A & B & C & D). rewrite set_nth_len in A, B.
    split; [exact A|]. split; [cbn [length]; destruct (Nat.eq_dec (length r) 0) as [Z|NZ]; [lia|specialize (B NZ); lia]|].
    split.
    + intros m Hm. rewrite C by lia. apply set_nth_other. lia.
    + intros [|m].
      * rewrite Nat.add_0_r. cbn [nth_error]. rewrite NE. exists d1, e'. split; [exact S1|]. split; [exact Q1|]. split; [exact AP|].
        rewrite C by lia. apply set_nth_same. exact NL.
      * specialize (D m). rewrite Nat.add_succ_l, <- Nat.add_succ_r in D. cbn [nth_error].
        rewrite set_nth_other in D by lia. destruct (nth_error r m), (nth_error l (n + Datatypes.S m)); exact D.
Qed.
End Rows.

Section Scans.
Context {N : Num}.
Variable strtod : text -> num.
Variables (key : string -> option string) (as_ : string -> string -> Prop).
Hypothesis KEY : forall l k, key l = Some k <-> as_ l k.
Variables (lf : bool) (apply : string -> element -> list (string * num) -> element * res unit) (op : string -> list (string * num) -> el_op)
  (bnd : element -> string -> bool).
Hypothesis APPLY : forall sub e d, apply sub e d = if bnd e sub then el_call lf e (op sub d) else (e, Ok tt).
Hypothesis BOUND : forall sub e d sub', bnd (fst (el_call lf e (op sub d))) sub' = bnd e sub'.

Lemma file_calls_ext content n (P Q : string -> Prop) : (forall s, P s <-> Q s) -> forall subs i calls,
  file_calls strtod op P as_ content n i subs calls -> file_calls strtod op Q as_ content n i subs calls.
Proof.
  intros PQ subs i calls H. induction H as [i|i sub subs calls labels rows SC NO _ IH|i sub subs calls labels rows row d SC R B S F _ IH].
  - constructor.
  - eapply no_call; [exact SC| |exact IH]. destruct NO as [NO|NO]; [now left|right]. intros H. apply NO, PQ, H.
  - eapply one_call; [exact SC|exact R|apply PQ, B|exact S|exact F|exact IH].
Qed.

Lemma labelled_nil labels : labelled key labels (@nil (string * num)).
Proof. split; [constructor|]. intros k v H. discriminate. Qed.

Lemma fileScans_spec content : forall subs i l l',
  fileScans strtod key apply (setFileName content) i subs l = (l', Ok tt) ->
  length l' = length l /\ forall n e, nth_error l n = Some e ->
    exists calls, file_calls strtod op (fun s => bnd e s = true) as_ content n i subs calls /\ all_ok lf e calls /\
      nth_error l' n = Some (el_run lf e calls).
Proof.
  induction subs as [|sub r IH]; intros i l l' E; cbn [fileScans] in E.
  - injection E as <-. split; [reflexivity|]. intros n e Hn. exists []. split; [constructor|]. split; [exact I|exact Hn].
  - destruct (getScanLabels (setFileName content) i) as [labels| | |] eqn:GL; try discriminate;
    destruct (getScanData strtod (setFileName content) i) as [rows| | |] eqn:GD; try discriminate.
    destruct (nth_error rows i) as [row|]; [|discriminate]. destruct (Nat.eqb _ _); cbn [negb] in E; [|discriminate].
    destruct (fileRows key (apply sub) labels rows 0 [] l) as [l1 [[]| | |]] eqn:FR; try discriminate.
    destruct (@fileRows_spec _ key as_ KEY (apply sub) labels rows 0 [] l l1 (labelled_nil labels) FR) as (L1 & _ & _ & R1).
    destruct (IH _ _ _ E) as [L2 R2]. split; [congruence|]. intros n e Hn.
    assert (SC : scan_is strtod content i labels rows) by (split; [exact GL|exact GD]).
    specialize (R1 n). cbn [Nat.add] in R1. rewrite Hn in R1. destruct (nth_error rows n) as [rown|] eqn:RN.
    + destruct R1 as (d & e1 & S & F & AP & N1). rewrite APPLY in AP. destruct (R2 n e1 N1) as (calls & FC & OK & RUN).
      destruct (bnd e sub) eqn:BD.
      * exists (op sub d :: calls). assert (E1 : e1 = fst (el_call lf e (op sub d))) by (rewrite AP; reflexivity).
        split; [|split].
        -- eapply one_call; [exact SC|exact RN|exact BD|exact S|exact F|].
           revert FC. apply file_calls_ext. intros s. rewrite E1, BOUND. tauto.
        -- cbn [all_ok]. rewrite AP. cbn [fst snd]. split; [reflexivity|exact OK].
        -- unfold el_run in *. cbn [fold_left]. rewrite AP. cbn [fst]. exact RUN.
      * injection AP as <-. exists calls. split; [|split; [exact OK|exact RUN]]. eapply no_call; [exact SC| |exact FC]. right. congruence.
    + rewrite <- R1 in Hn. destruct (R2 n e) as (calls & FC & OK & RUN); [congruence|]. exists calls. split; [|split; [exact OK|exact RUN]].
      eapply no_call; [exact SC|left; exact RN|exact FC].
Qed.
End Scans.

Lemma subShells_main main subs : subShells main = Some subs <-> In (main, subs) main_shells.
Proof.
  unfold subShells, main_shells. destruct (String.eqb_spec main "K") as [->|NK]; [|destruct (String.eqb_spec main "L") as [->|NL]; [|destruct (String.eqb_spec main "M") as [->|NM]]].
  1-3: (split; [intros H; injection H as <-; cbn; tauto|intros H; cbn in H; repeat destruct H as [H|H]; try congruence; contradiction]).
  split; [discriminate|]. cbn. intros [H|[H|[H|[]]]]; congruence.
Qed.
Lemma subShells_none main : subShells main = None <-> ~ In main ["K"; "L"; "M"].
Proof.
  unfold subShells. destruct (String.eqb_spec main "K") as [->|NK]; [|destruct (String.eqb_spec main "L") as [->|NL]; [|destruct (String.eqb_spec main "M") as [->|NM]]].
  1-3: (split; [discriminate|cbn; tauto]). split; [|reflexivity]. cbn. intros _ [H|[H|[H|[]]]]; congruence.
Qed.
Lemma transitionKey_iff l k : transitionKey l = Some k <-> as_labelled l k.
Proof.
  unfold transitionKey, as_labelled. destruct (String.eqb_spec l "Z") as [->|NZ].
  - split; [discriminate|]. intros [H _]. congruence.
  - split; [intros H; injection H as <-; split; [exact NZ|reflexivity]|intros [_ ->]; reflexivity].
Qed.
Lemma substring_full : forall s, substring 0 (String.length s) s = s.
Proof. induction s as [|c s IH]; cbn; [reflexivity|now rewrite IH]. Qed.
Lemma substring_omega l : substring 0 5 l = "omega" <-> exists rest, l = "omega" ++ rest.
Proof.
  split.
  - intros H. do 5 (destruct l as [|? l]; [discriminate|]). cbn in H. injection H as -> -> -> -> -> _. exists l. reflexivity.
  - intros [rest ->]. cbn. destruct rest; reflexivity.
Qed.
Lemma constantKey_iff l k : constantKey l = Some k <-> as_constant l k.
Proof.
  unfold constantKey, as_constant. destruct (String.eqb_spec l "Z") as [->|NZ].
  - split; [discriminate|]. intros [H _]. congruence.
  - destruct (Nat.ltb_spec 4 (String.length l)) as [L|L].
    + destruct (String.eqb_spec (substring 0 5 l) "omega") as [O|O].
      * split; [intros H; injection H as <-; split; [exact NZ|right; split; [apply substring_omega, O|reflexivity]]|].
        intros (_ & [[H _]|[_ ->]]); [lia|reflexivity].
      * split; [discriminate|]. intros (_ & [[H _]|[H _]]); [lia|]. apply substring_omega in H. congruence.
    + split; [intros H; injection H as <-; split; [exact NZ|left; split; [exact L|reflexivity]]|].
      intros (_ & [[_ ->]|[[rest ->] _]]); [reflexivity|]. cbn in L. lia.
Qed.
