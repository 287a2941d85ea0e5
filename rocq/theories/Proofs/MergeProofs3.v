(** The tables made from the data given and those of the data base. *)
From Coq Require Import Ascii String List ZArith Bool Arith Lia.
From Verif Require Import Base.Num Base.Res Base.SMap Base.Str Base.Text Model.Shell Model.Specfile Model.EPDL97 Model.Element Model.Elements Model.ElementsFiles
  Spec.MaterialSpec Spec.ElementSpec Proofs.ElementProofs Proofs.ElementProofs4 Proofs.ElementsProofs Proofs.InitProofs Proofs.InitProofs4 Proofs.EPDL97Proofs9 Proofs.MergeProofs.
Import ListNotations.
Set Implicit Arguments.
Local Open Scope string_scope.

Section Tables.
Context {N : Num}.
Lemma vat_same (t : list (string * list num)) k v : vat (mset sltb k v t) k = v.
Proof. unfold vat. now rewrite sfind_same. Qed.
Lemma vat_other (t : list (string * list num)) k k' v : k <> k' -> vat (mset sltb k' v t) k = vat t k.
Proof. intros H. unfold vat. now rewrite sfind_other by congruence. Qed.

Lemma shared_fold (f : list num -> list num) : forall shells (t : list (string * list num)), NoDup shells ->
  let t' := fold_left (fun t s => mset sltb s (f (vat t s)) t) shells t in
  (forall s, In s shells -> vat t' s = f (vat t s)) /\ (forall k, ~ In k shells -> vat t' k = vat t k).
Proof.
  induction shells as [|s r IH]; intros t ND; cbn zeta; cbn [fold_left]; [split; [contradiction|reflexivity]|]. inversion ND as [|? ? NI ND']; subst.
  destruct (IH (mset sltb s (f (vat t s)) t) ND') as [A B]. cbn zeta in A, B. split.
  - intros k [->|K].
    + rewrite (B k NI). apply vat_same.
    + rewrite (A k K). f_equal. apply vat_other. congruence.
  - intros k K. rewrite B; [|intros X; apply K; right; exact X]. apply vat_other. intros ->. apply K. left. reflexivity.
Qed.
Lemma photoShells_nodup : NoDup photoShells.
Proof. unfold photoShells. repeat (constructor; [cbn; intuition discriminate|]). constructor. Qed.
Lemma sharedShells_none j n photo total (t : list (string * list num)) : let t' := sharedShells [] j n photo total t in
  (forall s, In s photoShells -> vat t' s = shared false j j n photo total (vat t s)) /\ (forall k, ~ In k photoShells -> vat t' k = vat t k).
Proof. exact (@shared_fold (shared false j j n photo total) photoShells t photoShells_nodup). Qed.

Lemma raised_none b k x : raised (N := N) [] b k x = x.
Proof. unfold raised. generalize photoShells. intros l. induction l as [|s l IH]; [reflexivity|]. cbn [fold_left mfind]. exact IH. Qed.

Lemma vec_columns (e : element) grid t2 : getMassAttenuationCoefficients_vec e grid = Ok t2 ->
  exists ts, rmapM (Element.getMassAttenuationCoefficients e) grid = Ok ts /\
    (forall k, (forall t, In t ts -> exists v, mfind sltb k t = Some v) -> vat t2 k = map (fun t => val0 t k) ts).
Proof.
  unfold getMassAttenuationCoefficients_vec. intros H. apply rbind_Ok in H as (ts & R & H). exists ts. split; [exact R|].
  destruct ts as [|t0 ts]; [injection H as <-; intros k _; reflexivity|]. destruct (forallb _ (t0 :: ts)); [|discriminate]. apply Ok_inj in H. subst t2.
  intros k K. destruct (K t0 (or_introl eq_refl)) as [v V]. unfold vat.
  pose proof (mfind_map_key (fun q => map (fun t => val0 t q) (t0 :: ts)) k t0) as X. rewrite V in X. cbn [option_map] in X.
  exact (f_equal (fun o : option (list num) => match o with Some v => v | None => [] end) X).
Qed.
Lemma computeMu_keys (e : element) E t : computeMu e E = Ok t -> forall k, In k (photoShells ++ ["coherent"; "compton"; "pair"; "energy"; "photoelectric"])%list -> exists v, mfind sltb k t = Some v.
Proof.
  intros H k K. apply computeMu_spec in H as (_ & (part & _ & P) & S & E1 & E2 & _). apply in_app_or in K as [K|K]; [eexists; apply P, K|].
  destruct K as [<-|[<-|[<-|[<-|[<-|[]]]]]]; try (eexists; eassumption); destruct (S "coherent" (or_introl eq_refl)) as (? & ? & _ & _ & A); destruct (S "compton" (or_intror (or_introl eq_refl))) as (? & ? & _ & _ & B);
  destruct (S "pair" (or_intror (or_intror (or_introl eq_refl)))) as (? & ? & _ & _ & C); eexists; eassumption.
Qed.

(** ** What the element keeps after the calls *)
Lemma partial_binding (e : element) s g v k b : mfind sltb k (el_binding e) = Some b -> mfind sltb k (el_binding (fst (setPartialPhotoelectric e s g v))) = Some b.
Proof.
  intros H. unfold setPartialPhotoelectric. destruct (negb _); [exact H|]. destruct (negb _); [exact H|]. destruct (not_ascending _ _); [exact H|]. cbv zeta.
  destruct (String.eqb s "all other"); [exact H|]. destruct (combine g v) as [|[e0 v0] [|x l]]; try exact H. cbn [fst with_binding el_binding clearCache with_cache]. unfold mtouch, mmem.
  destruct (mfind sltb s (el_binding e)) eqn:F; [exact H|]. destruct (string_dec k s) as [->|Q]; [congruence|]. rewrite sfind_other by congruence. exact H.
Qed.
Lemma partial_other (e e' : element) s g v k : setPartialPhotoelectric e s g v = (e', Ok tt) -> k <> s ->
  mfind sltb k (el_ppE e') = mfind sltb k (el_ppE e) /\ mfind sltb k (el_ppV e') = mfind sltb k (el_ppV e).
Proof.
  unfold setPartialPhotoelectric. destruct (negb _); [discriminate|]. destruct (negb _); [discriminate|]. destruct (not_ascending _ _); [discriminate|]. cbv zeta. intros H Q.
  destruct (String.eqb s "all other"); [injection H as <-; cbn; rewrite !sfind_other by congruence; split; reflexivity|].
  destruct (combine g v) as [|[e0 v0] [|x l]]; injection H as <-; cbn [el_ppE el_ppV with_pp with_binding clearCache with_cache]; rewrite !sfind_other by congruence; split; reflexivity.
Qed.
Lemma partials_other t k : forall shells (e e' : element), putPartials t shells e = (e', Ok tt) -> ~ In k shells ->
  mfind sltb k (el_ppE e') = mfind sltb k (el_ppE e) /\ mfind sltb k (el_ppV e') = mfind sltb k (el_ppV e).
Proof.
  induction shells as [|s r IH]; intros e e' H NI; cbn [putPartials] in H; [injection H as <-; split; reflexivity|].
  unfold seqOk in H. destruct (setPartialPhotoelectric e s (vat t "energy") (vat t s)) as [e1 [[]| | |]] eqn:P; try discriminate.
  destruct (IH _ _ H) as [A B]; [intros X; apply NI; right; exact X|]. assert (Q : k <> s) by (intros ->; apply NI; left; reflexivity). destruct (@partial_other e e1 s _ _ k P Q) as [C D]. split; congruence.
Qed.
Lemma partial_cache (e e' : element) s g v : setPartialPhotoelectric e s g v = (e', Ok tt) -> el_muCache e' = [] /\ el_cacheFlag e' = el_cacheFlag e.
Proof.
  unfold setPartialPhotoelectric. destruct (negb _); [discriminate|]. destruct (negb _); [discriminate|]. destruct (not_ascending _ _); [discriminate|]. cbv zeta.
  destruct (String.eqb s "all other"); [intros H; injection H as <-; split; reflexivity|].
  destruct (combine g v) as [|[e0 v0] [|x l]]; intros H; injection H as <-; split; reflexivity.
Qed.
Lemma partials_stored t s : forall shells (e e' : element), putPartials t shells e = (e', Ok tt) -> NoDup shells -> In s shells ->
  exists ea eb, info_same e ea /\ setPartialPhotoelectric ea s (vat t "energy") (vat t s) = (eb, Ok tt) /\
    mfind sltb s (el_ppE e') = mfind sltb s (el_ppE eb) /\ mfind sltb s (el_ppV e') = mfind sltb s (el_ppV eb).
Proof.
  induction shells as [|a r IH]; intros e e' H ND I; [destruct I|]. cbn [putPartials] in H. inversion ND as [|? ? NI ND']; subst.
  unfold seqOk in H. destruct (setPartialPhotoelectric e a (vat t "energy") (vat t a)) as [e1 [[]| | |]] eqn:P; try discriminate. destruct I as [->|I].
  - exists e, e1. split; [apply info_refl|]. split; [exact P|]. exact (@partials_other t s r e1 e' H NI).
  - destruct (IH _ _ H ND' I) as (ea & eb & A & B & C). exists ea, eb. split; [|auto]. pose proof (partial_any e a (vat t "energy") (vat t a)) as Q. rewrite P in Q. exact (info_trans Q A).
Qed.
Lemma partials_binding t k b : forall shells (e : element), mfind sltb k (el_binding e) = Some b -> mfind sltb k (el_binding (fst (putPartials t shells e))) = Some b.
Proof.
  induction shells as [|a r IH]; intros e H; cbn [putPartials]; [exact H|]. unfold seqOk. pose proof (partial_binding e a (vat t "energy") (vat t a) k H) as P.
  destruct (setPartialPhotoelectric e a (vat t "energy") (vat t a)) as [e1 [[]| | |]]; try exact P. apply IH, P.
Qed.
Lemma partials_cache t : forall shells (e e' : element), putPartials t shells e = (e', Ok tt) -> el_muCache e = [] -> el_muCache e' = [].
Proof.
  induction shells as [|s r IH]; intros e e' H C; cbn [putPartials] in H; [injection H as <-; exact C|].
  unfold seqOk in H. destruct (setPartialPhotoelectric e s (vat t "energy") (vat t s)) as [e1 [[]| | |]] eqn:P; try discriminate. apply (IH _ _ H). apply (@partial_cache e e1 s _ _ P).
Qed.
(** the state after an element took tables *)
Lemma putTables_state t (e e' : element) : putTables t e = (e', Ok tt) ->
  el_muCache e' = [] /\ el_muE e' = vat t "energy" /\
  (length (vat t "pair") = length (vat t "energy") -> forall k, In k ["coherent"; "compton"; "energy"; "pair"; "photoelectric"] -> mfind sltb k (el_mu e') = Some (vat t k)) /\
  (length (vat t "photoelectric") = length (vat t "energy") /\ length (vat t "coherent") = length (vat t "energy") /\ length (vat t "compton") = length (vat t "energy")) /\
  (forall k b, mfind sltb k (el_binding e) = Some b -> mfind sltb k (el_binding e') = Some b) /\
  forall s, In s photoShells -> exists ea eb, info_same e ea /\ setPartialPhotoelectric ea s (vat t "energy") (vat t s) = (eb, Ok tt) /\
    mfind sltb s (el_ppE e') = mfind sltb s (el_ppE eb) /\ mfind sltb s (el_ppV e') = mfind sltb s (el_ppV eb).
Proof.
  pose proof photoShells_nodup as ND. revert ND. unfold putTables, seqOk. generalize photoShells. intros sh ND. intros H.
  destruct (Element.setMassAttenuationCoefficients e _ _ _ _ _) as [e1 [[]| | |]] eqn:M; try discriminate.
  destruct (setMu_info _ _ _ _ _ _ M) as (A & B & L & C). destruct (putPartials_info _ _ _ H) as (A' & B' & C').
  assert (Q : el_muCache e1 = [] /\ el_binding e1 = el_binding e /\ length (vat t "coherent") = length (vat t "energy") /\ length (vat t "compton") = length (vat t "energy")).
  { clear -M. unfold Element.setMassAttenuationCoefficients in M. cbv zeta in M. destruct (negb _); [discriminate|]. destruct (Nat.eqb_spec (length (vat t "compton")) (length (vat t "energy"))) as [L1|]; [|discriminate].
    destruct (Nat.eqb_spec (length (vat t "coherent")) (length (vat t "energy"))) as [L2|]; [|discriminate]. cbn [negb] in M.
    destruct (_ && _)%bool; [discriminate|]. destruct (match vat t "energy" with [] => false | x :: r => not_ascending x r end); [discriminate|]. injection M as <-. repeat split; assumption. }
  destruct Q as (Q & QB & LH & LK). split; [exact (partials_cache _ _ _ H Q)|]. split; [congruence|]. split.
  { intros LP k K. rewrite B', (C LP). cbn in K. destruct K as [<-|[<-|[<-|[<-|[<-|[]]]]]]; reflexivity. }
  split; [auto|]. split.
  { intros k b F. rewrite <- QB in F. pose proof (partials_binding t k sh e1 F) as G. rewrite H in G. exact G. }
  intros s I. destruct (partials_stored _ _ _ H ND I) as (ea & eb & X & Y). exists ea, eb. split; [exact (info_trans A X)|exact Y].
Qed.
End Tables.
