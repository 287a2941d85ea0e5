From Coq Require Import Ascii String List Bool Arith ZArith Reals Lra Lia Sorted Permutation.
From Verif Require Import Base.Num Base.Res Base.RSum Base.SMap Base.ListLemmas Base.Str Model.Shell Spec.ShellSpec.
Import ListNotations.
Local Open Scope string_scope.

(** ** Maps with string keys *)
Section Maps.
Context {V : Type}.
Implicit Types m l : list (string * V).

Lemma msorted_filter f m : msorted sltb m -> msorted sltb (filter f m).
Proof.
  unfold msorted, mkeys. induction m as [|[k v] m IH]; cbn; intros H; [constructor|].
  inversion H; subst. destruct (f (k, v)); [|apply IH; assumption].
  cbn. constructor; [apply IH; assumption|]. rewrite Forall_forall in H3 |- *. intros x Hx.
  apply H3. apply in_map_iff in Hx. destruct Hx as [y [<- Hy]]. apply filter_In in Hy. apply in_map, Hy.
Qed.
Lemma msorted_map_val {W} (f : string * V -> W) m : msorted sltb m -> msorted sltb (map (fun kv => (fst kv, f kv)) m).
Proof. unfold msorted, mkeys. rewrite map_map. cbn. auto. Qed.

Lemma filter_key_mset k v m (p : string -> bool) : p k = false ->
  filter (fun kv => p (fst kv)) (mset sltb k v m) = filter (fun kv => p (fst kv)) m.
Proof.
  intros Hp. induction m as [|[q w] m IH]; cbn; [rewrite Hp; reflexivity|].
  destruct (sltb q k) eqn:E1; cbn; [rewrite IH; reflexivity|].
  destruct (sltb k q) eqn:E2; cbn; [rewrite Hp; reflexivity|].
  assert (q = k) by (apply (st_total (ltb:=sltb)); assumption). subst q. rewrite Hp. reflexivity.
Qed.

Lemma nontotal_mset v m : nontotal (mset sltb "TOTAL" v m) = nontotal m.
Proof. unfold nontotal. apply (filter_key_mset "TOTAL" v m (fun k => negb (String.eqb k "TOTAL"))). reflexivity. Qed.

Lemma nontotal_In k v m : In (k, v) (nontotal m) <-> In (k, v) m /\ k <> "TOTAL".
Proof.
  unfold nontotal. rewrite filter_In. cbn. destruct (String.eqb_spec k "TOTAL"); cbn; intuition congruence.
Qed.

Lemma nontotal_id m : Forall (fun kv => fst kv <> "TOTAL") m -> nontotal m = m.
Proof.
  induction 1 as [|[k v] m Hk H IH]; cbn; [reflexivity|]. cbn in Hk.
  destruct (String.eqb_spec k "TOTAL"); [contradiction|]. cbn. f_equal. exact IH.
Qed.

Lemma filter_filter {A} (f g : A -> bool) (l : list A) : filter f (filter g l) = filter (fun a => g a && f a) l.
Proof. induction l as [|a l IH]; cbn; [reflexivity|]. destruct (g a); cbn; [destruct (f a); cbn; rewrite IH; reflexivity|exact IH]. Qed.
Lemma filter_map_comm {A B} (f : A -> B) (g : B -> bool) (l : list A) : filter g (map f l) = map f (filter (fun a => g (f a)) l).
Proof. induction l as [|a l IH]; cbn; [reflexivity|]. destruct (g (f a)); cbn; rewrite IH; reflexivity. Qed.

Lemma alast_last_binding k l : alast k l = last_binding k l.
Proof.
  unfold last_binding. induction l as [|[q w] l IH]; [reflexivity|]. cbn [alast rev].
  rewrite IH. clear IH. assert (F : forall (a b : list (string * V)) f, find f (a ++ b) = match find f a with Some x => Some x | None => find f b end).
  { intros a b f. induction a as [|x a IH]; cbn; [reflexivity|]. destruct (f x); [reflexivity|exact IH]. }
  rewrite F. destruct (find _ (rev l)); [reflexivity|]. cbn.
  destruct (st_eq_dec q k) as [->|Hn]; [rewrite String.eqb_refl; reflexivity|].
  destruct (String.eqb_spec q k); [contradiction|reflexivity].
Qed.
End Maps.

(** ** Construction *)
Lemma string_len_le2 (name : string) : String.length name <= 2 ->
  name = "" \/ (exists a, name = String a "") \/ (exists a b, name = String a (String b "")).
Proof.
  destruct name as [|a [|b [|c n]]]; cbn; intros H; [now left|right; left; eexists; reflexivity|right; right; do 2 eexists; reflexivity|lia].
Qed.

Section Gen.
Context {N : Num}.

Definition name_consts (name : string) : list (string * num) := mset_all sltb (map (fun c => (c, n0)) (constant_names name)) [].
Definition main_of (name : string) : nat := if String.eqb name "K" then 0 else if String.prefix "L" name then 1 else 2.
Definition sub_of (name : string) : nat := match name with String _ (String c "") => code c - 48 | _ => 0 end.

Lemma shell_new_Ok name : In name shell_names ->
  shell_new name = Ok (mkShell name (main_of name) (sub_of name) [] [] [] [] [] (name_consts name)).
Proof. unfold shell_names; cbn [In]; intros H. repeat (destruct H as [<-|H]; [reflexivity|]). contradiction. Qed.

Lemma shell_new_name name s : shell_new name = Ok s -> In name shell_names.
Proof.
  unfold shell_new. destruct (Nat.ltb_spec 2 (String.length name)); [discriminate|].
  destruct (string_len_le2 name) as [->|[[a ->]|(a & b & ->)]]; [lia|discriminate| |].
  - unfold main_index. cbn -[String.eqb].
    replace (substring 0 1 (String a "")) with (String a "") by reflexivity.
    destruct (String.eqb_spec (String a "") "K") as [->|_]; [intros _; cbn; tauto|].
    destruct (String.eqb (String a "") "L"), (String.eqb (String a "") "M"); (let X := fresh in intros X; cbn in X; discriminate X).
  - assert (D : String a "" = "L" \/ String a "" = "M" \/ (String a "" <> "L" /\ String a "" <> "M")).
    { destruct (string_dec (String a "") "L"); [tauto|]. destruct (string_dec (String a "") "M"); tauto. }
    destruct D as [D|[D|[D1 D2]]].
    + injection D as ->. destruct b as [[] [] [] [] [] [] [] []]; intros X; vm_compute in X; try discriminate X; cbn; tauto.
    + injection D as ->. destruct b as [[] [] [] [] [] [] [] []]; intros X; vm_compute in X; try discriminate X; cbn; tauto.
    + unfold main_index. replace (substring 0 1 (String a (String b ""))) with (String a "") by reflexivity.
      apply String.eqb_neq in D1, D2. rewrite D1, D2. destruct (String.eqb (String a "") "K"); discriminate.
Qed.

Lemma shell_new_iff name : (exists s, shell_new name = Ok s) <-> In name shell_names.
Proof. split; [intros [s H]; eapply shell_new_name, H|intros H; eexists; apply shell_new_Ok, H]. Qed.

Lemma shell_new_throws name : ~ In name shell_names -> shell_new name = Throw InvalidArgument.
Proof.
  intros H. assert (K : shell_new name = Throw InvalidArgument \/ exists s, shell_new name = Ok s).
  { unfold shell_new. destruct (Nat.ltb _ _); [now left|]. destruct (main_index name); [|now left].
    destruct (Nat.eqb _ 2); [|right; eexists; reflexivity].
    destruct (char_to_int _); [|now left]. cbn [rbind].
    destruct (Nat.ltb _ 1); [now left|]. destruct (_ && _); [now left|]. destruct (_ && _); [now left|].
    right; eexists; reflexivity. }
  destruct K as [K|[s K]]; [exact K|]. exfalso. eapply H, shell_new_name, K.
Qed.

(** identity of the shell never changes *)
Definition same_id (s s' : @shell N) : Prop := sh_name s' = sh_name s /\ sh_main s' = sh_main s /\ sh_sub s' = sh_sub s.
Lemma step_same_id s o : same_id s (fst (sh_step s o)).
Proof.
  destruct o; cbn [sh_step].
  1-3: unfold setRadiativeTransitions_arr, setRadiativeTransitions_map, setRadiativeTransitions_vec;
    match goal with |- context [radLoop ?a ?b ?c ?d] => destruct (radLoop a b c d) as [m' [| | |]] end; repeat split.
  1-2: unfold setNonradiativeTransitions_map, setNonradiativeTransitions_vec;
    match goal with |- context [nonradLoop ?a ?b ?c] => destruct (nonradLoop a b c) as [m' [| | |]] end; repeat split.
  - repeat split.
  - unfold setShellConstants. destruct (constLoop m (sh_const s)). repeat split.
Qed.
Lemma run_same_id ops s : same_id s (sh_run s ops).
Proof.
  revert s. induction ops as [|o ops IH]; intros s; [repeat split|]. change (sh_run s (o :: ops)) with (sh_run (fst (sh_step s o)) ops).
  destruct (IH (fst (sh_step s o))) as (A & B & C). destruct (step_same_id s o) as (D & E & F).
  unfold same_id. rewrite A, B, C. auto.
Qed.

Definition has_id (name : string) (s : @shell N) : Prop :=
  In name shell_names /\ sh_name s = name /\ sh_main s = main_of name /\ sh_sub s = sub_of name.
Lemma reachable_id name s : reachable name s -> has_id name s.
Proof.
  intros (s0 & ops & H & ->). pose proof (shell_new_name _ _ H) as Hn. split; [exact Hn|].
  rewrite shell_new_Ok in H by exact Hn. injection H as <-. destruct (run_same_id ops
    (mkShell name (main_of name) (sub_of name) [] [] [] [] [] (name_consts name))) as (A & B & C).
  rewrite A, B, C. repeat split.
Qed.

(** the code's groups are those of the specification *)
Lemma ckIndices_spec name s : has_id name s ->
  map (fun i => (fij name i, ckPrefix name i)) (ckIndices s) = map (fun g => (fst g, name ++ "-" ++ snd g)) (ck_groups name).
Proof.
  intros (Hn & E1 & E2 & E3). unfold ckIndices. rewrite E1, E2, E3. clear - Hn.
  unfold shell_names in Hn; cbn [In] in Hn. repeat (destruct Hn as [<-|Hn]; [reflexivity|]). contradiction.
Qed.

(** ** Constants (C20) *)
Lemma constLoop_keys l m : msorted sltb m -> mkeys (fst (constLoop l m)) = mkeys m /\ msorted sltb (fst (constLoop l m)).
Proof.
  revert m. induction l as [|[k v] l IH]; intros m Hs; cbn; [split; [reflexivity|exact Hs]|].
  destruct (mmem sltb k m) eqn:E; [|split; [reflexivity|exact Hs]].
  destruct (IH (mset sltb k v m) (smset_sorted k v Hs)) as [A B]. split; [|exact B]. rewrite A. clear A B IH.
  unfold mmem in E. induction m as [|[q w] m IHm]; cbn in *; [discriminate|].
  destruct (sltb q k) eqn:E1.
  - cbn. f_equal. apply IHm; [|exact E]. inversion Hs; assumption.
  - destruct (sltb k q); [discriminate|reflexivity].
Qed.

Lemma constLoop_ok l m : msorted sltb m -> (forall k, In k (map fst l) -> In k (mkeys m)) ->
  constLoop l m = (mset_all sltb l m, Ok tt).
Proof.
  revert m. induction l as [|[k v] l IH]; intros m Hs H; cbn; [reflexivity|].
  assert (Hk : In k (mkeys m)) by (apply H; now left).
  assert (E : mmem sltb k m = true).
  { unfold mmem. destruct (mfind sltb k m) eqn:E; [reflexivity|]. apply smfind_None in E; [contradiction|exact Hs]. }
  rewrite E. apply IH; [apply smset_sorted, Hs|].
  intros q Hq. apply smset_keys_In; [exact Hs|]. right. apply H. now right.
Qed.

Lemma constLoop_bad l m : msorted sltb m -> (exists k, In k (map fst l) /\ ~ In k (mkeys m)) ->
  snd (constLoop l m) = Throw InvalidArgument.
Proof.
  revert m. induction l as [|[k v] l IH]; intros m Hs (q & Hq & Hn); cbn in Hq; [contradiction|]. cbn.
  destruct (mmem sltb k m) eqn:E; [|reflexivity]. apply IH; [apply smset_sorted, Hs|].
  unfold mmem in E. destruct (mfind sltb k m) eqn:F; [|discriminate]. apply smfind_In in F; [|exact Hs].
  assert (Hk : In k (mkeys m)) by (apply in_map_iff; exists (k, n); auto).
  exists q. destruct Hq as [->|Hq]; [contradiction|]. split; [exact Hq|].
  rewrite smset_keys_In by exact Hs. intros [->|?]; contradiction.
Qed.

Lemma step_const s o : msorted sltb (sh_const s) ->
  mkeys (sh_const (fst (sh_step s o))) = mkeys (sh_const s) /\ msorted sltb (sh_const (fst (sh_step s o))).
Proof.
  intros Hs. destruct o; cbn [sh_step].
  1-3: unfold setRadiativeTransitions_arr, setRadiativeTransitions_map, setRadiativeTransitions_vec;
    match goal with |- context [radLoop ?a ?b ?c ?d] => destruct (radLoop a b c d) as [m' [| | |]] end; split; [reflexivity|exact Hs|reflexivity|exact Hs|reflexivity|exact Hs|reflexivity|exact Hs].
  1-2: unfold setNonradiativeTransitions_map, setNonradiativeTransitions_vec;
    match goal with |- context [nonradLoop ?a ?b ?c] => destruct (nonradLoop a b c) as [m' [| | |]] end; split; [reflexivity|exact Hs|reflexivity|exact Hs|reflexivity|exact Hs|reflexivity|exact Hs].
  - split; [reflexivity|exact Hs].
  - unfold setShellConstants. pose proof (constLoop_keys m (sh_const s) Hs) as K.
    destruct (constLoop m (sh_const s)). exact K.
Qed.

Lemma name_consts_keys name : In name shell_names -> mkeys (name_consts name) = constant_names name /\ msorted sltb (name_consts name).
Proof.
  intros H. assert (K : msorted sltb (name_consts name)) by (apply smset_all_sorted, smsorted_nil). split; [|exact K].
  unfold shell_names in H; cbn [In] in H. repeat (destruct H as [<-|H]; [reflexivity|]). contradiction.
Qed.

Lemma reachable_const name s : reachable name s -> mkeys (sh_const s) = constant_names name /\ msorted sltb (sh_const s).
Proof.
  intros (s0 & ops & H & ->). pose proof (shell_new_name _ _ H) as Hn. rewrite shell_new_Ok in H by exact Hn.
  assert (K : mkeys (sh_const s0) = constant_names name /\ msorted sltb (sh_const s0)).
  { injection H as <-. cbn. apply name_consts_keys, Hn. }
  clear H. revert s0 K. induction ops as [|o ops IH]; intros s0 K; [exact K|]. change (sh_run s0 (o :: ops)) with (sh_run (fst (sh_step s0 o)) ops). apply IH.
  destruct (step_const s0 o (proj2 K)) as [A B]. split; [rewrite A; apply K|exact B].
Qed.

Lemma setShellConstants_iff name s l : reachable name s ->
  (snd (setShellConstants s l) = Ok tt <-> Forall (fun kv => In (fst kv) (constant_names name)) l) /\
  (snd (setShellConstants s l) = Ok tt \/ snd (setShellConstants s l) = Throw InvalidArgument).
Proof.
  intros H. destruct (reachable_const _ _ H) as [Hk Hs]. unfold setShellConstants.
  destruct (Forall_dec (fun kv : string * num => In (fst kv) (constant_names name))
    (fun kv => in_dec string_dec (fst kv) (constant_names name)) l) as [F|F].
  - rewrite constLoop_ok; [|exact Hs|].
    + cbn. split; [split; auto|now left].
    + intros k Hi. rewrite Hk. apply in_map_iff in Hi. destruct Hi as [x [<- Hx]]. rewrite Forall_forall in F. apply F, Hx.
  - assert (E : snd (constLoop l (sh_const s)) = Throw InvalidArgument).
    { apply constLoop_bad; [exact Hs|]. apply neg_Forall_Exists_neg in F;
        [|intros kv; apply (in_dec string_dec (fst kv) (constant_names name))].
      apply Exists_exists in F. destruct F as (x & Hx & Hn). exists (fst x). split; [apply in_map, Hx|]. rewrite Hk. exact Hn. }
    destruct (constLoop l (sh_const s)) as [m r]. cbn in E |- *. rewrite E. split; [split; [discriminate|contradiction]|now right].
Qed.

Lemma setShellConstants_effect name s l s' k : reachable name s -> setShellConstants s l = (s', Ok tt) ->
  mfind sltb k (getShellConstants s') =
  match last_binding k l with Some v => Some v | None => mfind sltb k (getShellConstants s) end.
Proof.
  intros H E. destruct (reachable_const _ _ H) as [Hk Hs].
  assert (F : Forall (fun kv => In (fst kv) (constant_names name)) l).
  { apply (proj1 (setShellConstants_iff name s l H)). rewrite E. reflexivity. }
  unfold setShellConstants in E. rewrite constLoop_ok in E; [|exact Hs|].
  - injection E as <-. unfold getShellConstants. cbn. rewrite smfind_mset_all by exact Hs. rewrite alast_last_binding. reflexivity.
  - intros q Hi. rewrite Hk. apply in_map_iff in Hi. destruct Hi as [x [<- Hx]]. rewrite Forall_forall in F. apply F, Hx.
Qed.

(** ** Labels (C17) *)
Lemma radLabel_spec name label : In name shell_names ->
  (acceptable name label -> radLabel name label = Some (canonical label)) /\
  (~ acceptable name label -> radLabel name label = None).
Proof.
  intros Hn. unfold radLabel, canonical, acceptable, totalLabel. change (toUpperCaseString label) with (upper label).
  generalize (upper label) as u. clear label. intros u.
  assert (Hlen : String.length name = 1 \/ String.length name = 2)
    by (unfold shell_names in Hn; cbn [In] in Hn; repeat (destruct Hn as [<-|Hn]; [cbn; tauto|]); contradiction).
  destruct (String.eqb_spec u "TOTAL") as [->|Ht].
  { split; [intros _|tauto]. cbn -[String.prefix]. destruct (String.prefix name "TOTAL"); reflexivity. }
  destruct (Nat.eqb_spec (String.length u) 2) as [L2|L2].
  { destruct u as [|a [|b [|c u]]]; try discriminate. cbn [append String.length Nat.eqb andb].
    assert (P : String.prefix name (String a (String b "2")) = true <-> begins_with name (String a (String b ""))).
    { rewrite prefix_spec. split.
      - intros [r Hr]. destruct name as [|n1 [|n2 [|n3 name]]]; cbn in Hlen; try lia.
        + injection Hr as -> Hr. exists (String b ""). reflexivity.
        + injection Hr as -> -> Hr. exists "". reflexivity.
      - intros [r Hr]. exists (r ++ "2"). rewrite <- (append_assoc_str name). rewrite <- Hr. reflexivity. }
    split; intros H.
    - assert (B : begins_with name (String a (String b ""))).
      { destruct H as [H|[(x1 & x2 & x3 & x4 & x5 & H & _)|[_ H]]]; [discriminate|discriminate|exact H]. }
      apply P in B. rewrite B. reflexivity.
    - destruct (String.prefix name _) eqn:E; [exfalso; apply H; right; right; split; [cbn; lia|apply P; reflexivity]|].
      destruct (String.eqb_spec (String a (String b "2")) "TOTAL"); [discriminate|reflexivity]. }
  rewrite (proj2 (String.eqb_neq _ _) Ht).
  destruct (Nat.eqb_spec (String.length u) 5) as [L5|L5]; cbn [andb negb].
  { destruct u as [|a [|b [|c [|d [|e [|f u]]]]]]; try discriminate. cbn [get].
    destruct (isdigit d) eqn:Ed; [destruct (isdigit e) eqn:Ee|]; cbn [andb].
    - split; [reflexivity|]. intros H. exfalso. apply H. right. left. exists a, b, c, d, e. auto.
    - split; [|reflexivity]. intros [H|[(x1 & x2 & x3 & x4 & x5 & H & H1 & H2)|[H _]]]; [contradiction| |cbn in H; lia].
      injection H as <- <- <- <- <-. congruence.
    - split; [|reflexivity]. intros [H|[(x1 & x2 & x3 & x4 & x5 & H & H1 & H2)|[H _]]]; [contradiction| |cbn in H; lia].
      injection H as <- <- <- <- <-. congruence. }
  split; intros H.
  - assert (B : begins_with name u).
    { destruct H as [H|[(x1 & x2 & x3 & x4 & x5 & H & _)|[_ H]]]; [contradiction|subst u; cbn in L5; lia|exact H]. }
    apply prefix_spec in B. rewrite B. reflexivity.
  - destruct (String.prefix name u) eqn:E; [exfalso; apply H; right; right; split; [exact L5|apply prefix_spec, E]|].
    reflexivity.
Qed.

Lemma acceptable_dec name label : In name shell_names -> {acceptable name label} + {~ acceptable name label}.
Proof.
  intros Hn. destruct (radLabel name label) as [k|] eqn:E.
  - left. destruct (radLabel_spec name label Hn) as [_ H].
    destruct (Nat.eq_dec 0 0) as [_|]; [|lia].
    (* radLabel decides *)
    unfold acceptable.
    destruct (string_dec (upper label) "TOTAL") as [Ht|Ht]; [now left|].
    destruct (upper label) as [|a [|b [|c [|d [|e [|f u]]]]]] eqn:U.
    all: try (right; right; split; [cbn; lia|]).
    all: try (apply prefix_spec; destruct (String.prefix name _) eqn:P; [reflexivity|exfalso]).
    all: try (assert (radLabel name label = None); [|congruence]; apply H; intros [K|[(x1 & x2 & x3 & x4 & x5 & K & _)|[_ K]]];
      [congruence|rewrite U in K; discriminate|rewrite U in K; apply prefix_spec in K; congruence]).
    right. left. exists a, b, c, d, e. split; [reflexivity|].
    destruct (isdigit d) eqn:Ed, (isdigit e) eqn:Ee; auto; exfalso;
      (assert (radLabel name label = None); [|congruence]; apply H; intros [K|[(x1 & x2 & x3 & x4 & x5 & K & K1 & K2)|[K _]]];
      [congruence|rewrite U in K; injection K as <- <- <- <- <-; congruence|rewrite U in K; cbn in K; lia]).
  - right. intros A. apply (proj1 (radLabel_spec name label Hn)) in A. congruence.
Qed.

Lemma radLoop_ok name labels : In name shell_names -> forall (values : list num) m,
  Forall (acceptable name) labels -> length labels = length values ->
  radLoop name labels values m = (mset_all sltb (combine (map canonical labels) values) m, Ok tt).
Proof.
  intros Hn. induction labels as [|l labels IH]; intros values m Hf Hl; [reflexivity|].
  inversion Hf; subst. destruct values as [|v values]; [discriminate|]. cbn.
  rewrite (proj1 (radLabel_spec name l Hn)) by assumption. apply IH; [assumption|]. injection Hl; auto.
Qed.

Lemma radLoop_bad name labels : In name shell_names -> forall (values : list num) m,
  Exists (fun l => ~ acceptable name l) labels -> length labels = length values ->
  snd (radLoop name labels values m) = Throw InvalidArgument.
Proof.
  intros Hn. induction labels as [|l labels IH]; intros values m He Hl; [inversion He|].
  destruct values as [|v values]; [discriminate|]. cbn.
  destruct (acceptable_dec name l Hn) as [A|A].
  - rewrite (proj1 (radLabel_spec name l Hn)) by assumption. apply IH; [|injection Hl; auto].
    inversion He; subst; [contradiction|assumption].
  - rewrite (proj2 (radLabel_spec name l Hn)) by assumption. reflexivity.
Qed.

Lemma setRad_accept name s labels (values : list num) : reachable name s -> length labels = length values ->
  (snd (setRadiativeTransitions_vec s labels values) = Ok tt <-> Forall (acceptable name) labels) /\
  (snd (setRadiativeTransitions_vec s labels values) = Ok tt \/
   snd (setRadiativeTransitions_vec s labels values) = Throw InvalidArgument).
Proof.
  intros H Hl. destruct (reachable_id _ _ H) as (Hn & E & _). unfold setRadiativeTransitions_vec. rewrite E.
  destruct (Forall_dec (acceptable name) (fun l => acceptable_dec name l Hn) labels) as [F|F].
  - rewrite radLoop_ok by assumption. cbn. split; [split; auto|now left].
  - assert (X : snd (radLoop name labels values []) = Throw InvalidArgument).
    { apply radLoop_bad; [exact Hn| |exact Hl]. apply neg_Forall_Exists_neg; [intros l; apply (acceptable_dec name l Hn)|exact F]. }
    destruct (radLoop name labels values []) as [m r]. cbn in X. rewrite X. cbn. split; [split; [discriminate|contradiction]|now right].
Qed.

Lemma setRad_effect name s labels (values : list num) : reachable name s -> length labels = length values ->
  Forall (acceptable name) labels ->
  setRadiativeTransitions_vec s labels values =
  (updateFluorescenceRatios (with_rad s (mset_all sltb (combine (map canonical labels) values) [])), Ok tt).
Proof.
  intros H Hl F. destruct (reachable_id _ _ H) as (Hn & E & _). unfold setRadiativeTransitions_vec. rewrite E.
  rewrite radLoop_ok by assumption. reflexivity.
Qed.

Lemma setRad_table name s labels (values : list num) s' k : reachable name s -> length labels = length values ->
  setRadiativeTransitions_vec s labels values = (s', Ok tt) ->
  mfind sltb k (getRadiativeTransitions s') = last_binding k (combine (map canonical labels) values).
Proof.
  intros H Hl E. assert (F : Forall (acceptable name) labels).
  { apply (proj1 (setRad_accept name s labels values H Hl)). rewrite E. reflexivity. }
  rewrite (setRad_effect name) in E by assumption. injection E as <-.
  unfold getRadiativeTransitions. cbn. rewrite smfind_mset_all by apply smsorted_nil. rewrite alast_last_binding.
  destruct (last_binding k _); reflexivity.
Qed.

(** the array overload is the vector one *)
Lemma upper_idem s : upper (upper s) = upper s.
Proof.
  unfold upper. induction s as [|c s IH]; cbn; [reflexivity|]. rewrite IH. f_equal.
  unfold toupper at 1. destruct (islower (toupper c)) eqn:E; [|reflexivity]. exfalso.
  destruct c as [[] [] [] [] [] [] [] []]; vm_compute in E; discriminate.
Qed.

(** ** Fluorescence ratios, any arithmetic *)
Lemma updateFluo_exact s : msorted sltb (sh_rad s) ->
  sh_fluo (updateFluorescenceRatios s) =
  map (fun kv => (fst kv, ndiv (snd kv) (nsum (map snd (nontotal (sh_rad s))))))
      (filter (fun kv => nltb n0 (snd kv)) (nontotal (sh_rad s))).
Proof.
  intros Hs. unfold updateFluorescenceRatios. cbn [sh_fluo with_fluo].
  change (filter not_total (sh_rad s)) with (nontotal (sh_rad s)).
  rewrite mset_all_id; [|apply msorted_map_val, msorted_filter, Hs].
  f_equal. unfold nontotal. rewrite filter_filter. apply filter_ext. intros [k v]. cbn. apply andb_comm.
Qed.

Lemma updateFluo_sorted s : msorted sltb (sh_fluo (updateFluorescenceRatios s)).
Proof. apply smset_all_sorted, smsorted_nil. Qed.
End Gen.
