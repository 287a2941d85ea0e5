(** Initialisation of the library of elements. *)
From Coq Require Import Ascii String List ZArith Bool Arith Lia Sorted.
From Verif Require Import Base.Num Base.Res Base.SMap Base.Str Base.Text Base.ListLemmas Model.Shell Model.Specfile Model.EPDL97 Model.Element Model.Elements Model.ElementsFiles
  Spec.MaterialSpec Spec.ElementSpec Spec.ElementsSpec Spec.FilesSpec Proofs.ElementProofs4 Proofs.FilesProofs Proofs.FilesProofs2 Proofs.FilesProofs3.
Import ListNotations.
Set Implicit Arguments.
Local Open Scope string_scope.

Section Tables.
Context {N : Num}.
Local Notation table := (list (string * num)).
Local Notation vtable := (list (string * list num)).

Lemma column_length (rows : list (list num)) idx n v : column rows idx n = Ok v -> length v = n.
Proof.
  unfold column. intros H. assert (G : forall l v, rmapM (fun i => cell rows i idx) l = Ok v -> length v = length l).
  { clear. induction l as [|a l IH]; intros v H; cbn [rmapM] in H; [injection H as <-; reflexivity|].
    destruct (cell rows a idx) as [b| | |]; cbn [rbind] in H; try discriminate. destruct (rmapM _ l) as [bs| | |] eqn:E; cbn [rbind] in H; try discriminate.
    injection H as <-. cbn. now rewrite (IH bs eq_refl). }
  rewrite (G _ _ H). apply seq_length.
Qed.
Definition all_length (n : nat) (t : vtable) : Prop := forall k v, mfind sltb k t = Some v -> length v = n.
Lemma all_length_set n t k v : all_length n t -> length v = n -> all_length n (mset sltb k v t).
Proof.
  intros A L q w H. destruct (string_dec k q) as [<-|NE]; [rewrite smfind_mset_same in H; congruence|]. rewrite sfind_other in H by exact NE. exact (A q w H).
Qed.
Lemma vadd_length (a b : list num) n : length a = n -> length b = n -> length (vadd a b) = n.
Proof. intros A B. unfold vadd. rewrite map_length, combine_length. lia. Qed.

Lemma tables_shape (ep : epdl) z t : getMassAttenuationTables ep z = Ok t ->
  exists n, all_length n t /\ length (vat t "photoelectric") = n /\ length (vat t "pair") = n /\ mmem sltb "pair" t = true.
Proof.
  unfold getMassAttenuationTables. destruct (negb (ep_init ep)); [discriminate|]. destruct (z <? 1)%Z; [discriminate|].
  destruct (vgetZ (ep_values ep) (zRow ep z)) as [rows| | |]; cbn [rbind]; try discriminate.
  destruct (vgetZ (ep_energy ep) (zRow ep z)) as [grid| | |]; cbn [rbind]; try discriminate. cbv zeta.
  set (n := length grid). intros H. exists n.
  assert (INV : forall l s s', rfold (tableStep rows n) l s = Ok s' ->
    (let '(r, p, o) := s in all_length n r /\ length p = n /\ length o = n) ->
    (let '(r, p, o) := s' in all_length n r /\ length p = n /\ length o = n) /\
    (forall k, (mmem sltb k (fst (fst s)) = true \/ k <> "total" /\ k <> "photoelectric" /\ In k (map fst l)) -> mmem sltb k (fst (fst s')) = true)).
  { induction l as [|[k i] l IH]; intros [[r p] o] s' E I; cbn [rfold] in E.
    - injection E as <-. split; [exact I|]. cbn. intros k [Q|(_ & _ & [])]. exact Q.
    - destruct (tableStep rows n (r, p, o) (k, i)) as [s1| | |] eqn:TS; cbn [rbind] in E; try discriminate.
      assert (S1 : (let '(r, p, o) := s1 in all_length n r /\ length p = n /\ length o = n) /\
                   (forall q, mmem sltb q r = true -> mmem sltb q (fst (fst s1)) = true) /\ (k <> "total" -> k <> "photoelectric" -> mmem sltb k (fst (fst s1)) = true)).
      { unfold tableStep in TS. destruct (String.eqb_spec k "total") as [Kt|Kt]; [cbn [orb] in TS; injection TS as <-; split; [exact I|]; split; [auto|intros; congruence]|].
        destruct (String.eqb_spec k "photoelectric") as [Kp|Kp]; [cbn [orb] in TS; injection TS as <-; split; [exact I|]; split; [auto|intros; congruence]|]. cbn [orb] in TS.
        destruct (column rows i n) as [v| | |] eqn:C; cbn [rbind] in TS; try discriminate. apply column_length in C. destruct I as (I1 & I2 & I3).
        assert (MM : (forall q, mmem sltb q r = true -> mmem sltb q (mset sltb k v r) = true) /\ mmem sltb k (mset sltb k v r) = true).
        { unfold mmem. split; [|now rewrite smfind_mset_same]. intros q Hq. destruct (string_dec k q) as [<-|NE]; [now rewrite smfind_mset_same|now rewrite sfind_other by exact NE]. }
        assert (AL : all_length n (mset sltb k v r)) by (apply all_length_set; assumption).
        destruct (_ || _ || _)%bool; [|destruct (existsb _ _)]; injection TS as <-; cbn [fst]; (split; [|split; [apply MM|intros; apply MM]]); repeat split; try assumption; apply vadd_length; assumption. }
      destruct S1 as (J1 & J2 & J3). destruct (IH s1 s' E J1) as [K1 K2]. split; [exact K1|]. intros q [Q|(Q1 & Q2 & [Q3|Q3])]; apply K2.
      + left. apply J2. exact Q.
      + left. cbn in Q3. subst q. apply J3; assumption.
      + right. repeat split; assumption. }
  destruct (rfold (tableStep rows n) (ep_index ep) ([], repeat n0 n, repeat n0 n)) as [[[r p] o]| | |] eqn:RF; cbn [rbind] in H; try discriminate.
  apply INV in RF; [|split; [intros k v Hk; discriminate|rewrite repeat_length; split; reflexivity]]. destruct RF as [(A & P & O) MM]. cbn [fst] in MM.
  injection H as <-. set (r1 := if mmem sltb "pair" (ep_index ep) then r else mset sltb "pair" (repeat n0 n) r).
  assert (R1 : all_length n r1) by (unfold r1; destruct (mmem _ _ _); [exact A|apply all_length_set; [exact A|apply repeat_length]]).
  assert (M1 : mmem sltb "pair" r1 = true).
  { unfold r1. destruct (mmem sltb "pair" (ep_index ep)) eqn:MI; [|unfold mmem; now rewrite smfind_mset_same].
    apply MM. right. split; [discriminate|]. split; [discriminate|]. unfold mmem in MI. destruct (mfind sltb "pair" (ep_index ep)) as [i|] eqn:F; [|discriminate].
    clear -F. induction (ep_index ep) as [|[a b] l IH]; cbn [mfind] in F; [discriminate|]. destruct (sltb a "pair") eqn:L1; [right; apply IH, F|].
    destruct (sltb "pair" a) eqn:L2; [discriminate|]. left. cbn. exact (@st_total _ _ sltb_total a "pair" L1 L2). }
  assert (AL : all_length n (mset sltb "total" (vadd o p) (mset sltb "photoelectric" p r1))) by (apply all_length_set; [apply all_length_set; assumption|apply vadd_length; assumption]).
  split; [exact AL|]. unfold vat. rewrite !sfind_other by discriminate. rewrite smfind_mset_same. split; [exact P|].
  unfold mmem in *. rewrite !sfind_other by discriminate. destruct (mfind sltb "pair" r1) as [v|] eqn:F; [|discriminate]. split; [exact (R1 _ _ F)|reflexivity].
Qed.

Lemma mtouch_val0 (b : table) k q : val0 (mtouch b k) q = val0 b q.
Proof.
  unfold mtouch, val0, mmem. destruct (mfind sltb k b) eqn:F; [reflexivity|]. destruct (string_dec k q) as [<-|NE]; [now rewrite smfind_mset_same, F|now rewrite sfind_other].
Qed.
(** what the tables leave alone *)
Definition info_same (e e' : @element N) : Prop :=
  el_name e' = el_name e /\ el_longName e' = el_longName e /\ el_z e' = el_z e /\ el_mass e' = el_mass e /\ el_density e' = el_density e /\
  el_column e' = el_column e /\ el_row e' = el_row e /\ el_shells e' = el_shells e /\ (forall k, val0 (el_binding e') k = val0 (el_binding e) k).
Lemma info_refl e : info_same e e. Proof. unfold info_same. repeat split. Qed.
Lemma info_trans a b c : info_same a b -> info_same b c -> info_same a c.
Proof. unfold info_same. intros H K. decompose [and] H. decompose [and] K. repeat split; congruence. Qed.
Lemma partial_info (e : element) s g v e' : setPartialPhotoelectric e s g v = (e', Ok tt) -> info_same e e' /\ el_mu e' = el_mu e /\ el_muE e' = el_muE e.
Proof.
  unfold setPartialPhotoelectric. destruct (negb _); [discriminate|]. destruct (negb _); [discriminate|]. destruct (not_ascending _ _); [discriminate|]. cbv zeta.
  destruct (String.eqb s "all other"); [intros H; injection H as <-; repeat split|].
  destruct (combine g v) as [|[e0 v0] [|x l]]; intros H; injection H as <-; try (repeat split).
  cbn. intros k. apply mtouch_val0.
Qed.
Lemma putPartials_info t : forall shells e e', putPartials t shells e = (e', Ok tt) -> info_same e e' /\ el_mu e' = el_mu e /\ el_muE e' = el_muE e.
Proof.
  induction shells as [|s r IH]; intros e e' H; cbn [putPartials] in H; [injection H as <-; split; [apply info_refl|split; reflexivity]|].
  unfold seqOk in H. destruct (setPartialPhotoelectric e s (vat t "energy") (vat t s)) as [e1 [[]| | |]] eqn:P; try discriminate.
  destruct (partial_info _ _ _ _ P) as (A & B & C). destruct (IH _ _ H) as (A' & B' & C'). split; [exact (info_trans A A')|]. split; congruence.
Qed.
Lemma setMu_info (e : element) en ph co cp pr e' : Element.setMassAttenuationCoefficients e en ph co cp pr = (e', Ok tt) ->
  info_same e e' /\ el_muE e' = en /\ length ph = length en /\ (length pr = length en -> el_mu e' =
    [("coherent", co); ("compton", cp); ("energy", en); ("pair", pr); ("photoelectric", ph); ("total", zip_total co cp pr ph)]).
Proof.
  unfold Element.setMassAttenuationCoefficients. cbv zeta. destruct (Nat.eqb_spec (length ph) (length en)) as [L|]; cbn [negb]; [|discriminate]. destruct (negb _); [discriminate|].
  destruct (negb _); [discriminate|]. destruct (_ && _)%bool; [discriminate|].
  destruct (match en with [] => false | x :: r => not_ascending x r end); [discriminate|]. intros H. injection H as <-.
  split; [unfold info_same; repeat split|]. split; [reflexivity|]. split; [exact L|]. intros LP. cbn [el_mu with_mu].
  destruct (Nat.ltb_spec 0 (length pr)); [reflexivity|]. assert (PR : pr = []) by (destruct pr; [reflexivity|cbn in *; lia]). subst pr. cbn in LP. rewrite <- LP. reflexivity.
Qed.

(** the calls by which an element takes tables *)
Definition table_calls (t : vtable) : list el_op :=
  ESetMu (vat t "energy") (vat t "photoelectric") (vat t "coherent") (vat t "compton") (vat t "pair") ::
  map (fun s => ESetPartial s (vat t "energy") (vat t s)) photoShells.
Lemma partials_run lf t : forall shells e e', putPartials t shells e = (e', Ok tt) ->
  all_ok lf e (map (fun s => ESetPartial s (vat t "energy") (vat t s)) shells) /\ e' = el_run lf e (map (fun s => ESetPartial s (vat t "energy") (vat t s)) shells).
Proof.
  induction shells as [|s r IH]; intros e e' H; cbn [putPartials] in H; [injection H as <-; split; [exact I|reflexivity]|].
  unfold seqOk in H. destruct (setPartialPhotoelectric e s (vat t "energy") (vat t s)) as [e1 [[]| | |]] eqn:P; try discriminate.
  destruct (IH _ _ H) as [A B]. unfold el_run in *. cbn [map all_ok fold_left el_call]. rewrite P. cbn [fst snd]. split; [split; [reflexivity|exact A]|exact B].
Qed.
Lemma run_cons lf (e : element) o l e1 : el_call lf e o = (e1, Ok tt) -> (all_ok lf e1 l -> all_ok lf e (o :: l)) /\ el_run lf e (o :: l) = el_run lf e1 l.
Proof. intros H. unfold el_run. cbn [all_ok fold_left]. rewrite H. cbn [fst snd]. split; [intros A; split; [reflexivity|exact A]|reflexivity]. Qed.
Lemma putTables_gen lf t shells e e' : seqOk (Element.setMassAttenuationCoefficients e (vat t "energy") (vat t "photoelectric") (vat t "coherent") (vat t "compton") (vat t "pair")) (putPartials t shells) = (e', Ok tt) ->
  let calls := ESetMu (vat t "energy") (vat t "photoelectric") (vat t "coherent") (vat t "compton") (vat t "pair") :: map (fun s => ESetPartial s (vat t "energy") (vat t s)) shells in
  all_ok lf e calls /\ e' = el_run lf e calls.
Proof.
  unfold seqOk. destruct (Element.setMassAttenuationCoefficients e (vat t "energy") (vat t "photoelectric") (vat t "coherent") (vat t "compton") (vat t "pair")) as [e1 [[]| | |]] eqn:M; try discriminate. intros H.
  destruct (partials_run lf _ _ _ H) as [A B]. cbv zeta.
  destruct (@run_cons lf e (ESetMu (vat t "energy") (vat t "photoelectric") (vat t "coherent") (vat t "compton") (vat t "pair")) (map (fun s => ESetPartial s (vat t "energy") (vat t s)) shells) e1 M) as [R1 R2].
  split; [apply R1; exact A|]. rewrite R2. exact B.
Qed.
Lemma putTables_run lf t e e' : putTables t e = (e', Ok tt) -> all_ok lf e (table_calls t) /\ e' = el_run lf e (table_calls t).
Proof. unfold putTables, table_calls. generalize photoShells. intros shells H. apply putTables_gen. exact H. Qed.
Lemma putTables_info ep z t e e' : getMassAttenuationTables ep z = Ok t -> putTables t e = (e', Ok tt) ->
  info_same e e' /\ el_muE e' = vat t "energy" /\ el_mu e' =
    [("coherent", vat t "coherent"); ("compton", vat t "compton"); ("energy", vat t "energy"); ("pair", vat t "pair"); ("photoelectric", vat t "photoelectric");
     ("total", zip_total (vat t "coherent") (vat t "compton") (vat t "pair") (vat t "photoelectric"))].
Proof.
  intros T. destruct (tables_shape _ _ T) as (n & _ & P & Q & _). unfold putTables, seqOk. destruct (Element.setMassAttenuationCoefficients e _ _ _ _ _) as [e1 [[]| | |]] eqn:M; try discriminate.
  intros H. destruct (setMu_info _ _ _ _ _ _ M) as (A & B & L & C). destruct (putPartials_info _ _ _ H) as (A' & B' & C').
  split; [exact (info_trans A A')|]. rewrite B', C'. split; [exact B|]. apply C. congruence.
Qed.
End Tables.
