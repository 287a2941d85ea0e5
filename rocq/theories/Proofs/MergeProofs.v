(** Mass attenuation coefficients given for an element of a library: what does not change. *)
From Coq Require Import Ascii String List ZArith Bool Arith Lia.
From Verif Require Import Base.Num Base.Res Base.SMap Base.Str Base.Text Model.Shell Model.Specfile Model.EPDL97 Model.Element Model.Elements Model.ElementsFiles
  Spec.MaterialSpec Spec.ElementSpec Proofs.ElementProofs Proofs.ElementProofs4 Proofs.ElementsProofs Proofs.InitProofs.
Import ListNotations.
Set Implicit Arguments.
Local Open Scope string_scope.

Section Frame.
Context {N : Num}.
Lemma partial_any (e : element) s g v : info_same e (fst (setPartialPhotoelectric e s g v)).
Proof.
  unfold setPartialPhotoelectric. destruct (negb _); [apply info_refl|]. destruct (negb _); [apply info_refl|]. destruct (not_ascending _ _); [apply info_refl|]. cbv zeta.
  destruct (String.eqb s "all other"); [repeat split|].
  destruct (combine g v) as [|[e0 v0] [|x l]]; try (repeat split).
  cbn. intros k. apply mtouch_val0.
Qed.
Lemma setMu_any (e : element) en ph co cp pr : info_same e (fst (Element.setMassAttenuationCoefficients e en ph co cp pr)).
Proof.
  unfold Element.setMassAttenuationCoefficients. cbv zeta. repeat (destruct (negb _); [apply info_refl|]). destruct (_ && _)%bool; [apply info_refl|].
  destruct (match en with [] => false | x :: r => not_ascending x r end); [apply info_refl|]. repeat split.
Qed.
Lemma putPartials_any t : forall shells (e : element), info_same e (fst (putPartials t shells e)).
Proof.
  induction shells as [|s r IH]; intros e; cbn [putPartials]; [apply info_refl|]. unfold seqOk. pose proof (partial_any e s (vat t "energy") (vat t s)) as P.
  destruct (setPartialPhotoelectric e s (vat t "energy") (vat t s)) as [e1 [[]| | |]]; try exact P. exact (info_trans P (IH e1)).
Qed.
Lemma putTables_any t (e : element) : info_same e (fst (putTables t e)).
Proof.
  unfold putTables, seqOk. generalize photoShells. intros sh. pose proof (setMu_any e (vat t "energy") (vat t "photoelectric") (vat t "coherent") (vat t "compton") (vat t "pair")) as P.
  destruct (Element.setMassAttenuationCoefficients e _ _ _ _ _) as [e1 [[]| | |]]; try exact P. exact (info_trans P (putPartials_any t sh e1)).
Qed.
Lemma edgeLoop_val0 : forall cands keys (b : list (string * num)) out k, val0 (fst (edgeLoop cands keys b out)) k = val0 b k.
Proof.
  induction cands as [|[en i] c IH]; intros [|s keys] b out k; cbn [edgeLoop]; try reflexivity. cbv zeta. rewrite IH. apply mtouch_val0.
Qed.
Lemma extract_any (e : element) x y : info_same e (fst (extractEdges_from e x y)).
Proof.
  unfold extractEdges_from. repeat (match goal with |- context [if ?b then _ else _] => destruct b; [apply info_refl|] end). cbv zeta.
  generalize shellKeys. intros keys. pose proof (edgeLoop_val0 (rev (edgeCandidates 0 x y [])) keys (el_binding e) []) as V.
  destruct (edgeLoop _ _ _ _) as [b out]. cbn [fst] in *. repeat split. exact V.
Qed.
Lemma merge_any (e : element) t en ph co cp pr : info_same e (fst (mergeTables e t en ph co cp pr)).
Proof.
  unfold mergeTables. destruct en as [|e0 r]; [apply info_refl|]. destruct (countBelow _ _ _); try apply info_refl.
  pose proof (extract_any e (e0 :: r) ph) as X. destruct (extractEdges_from e (e0 :: r) ph) as [e1 [ed| | |]]; try exact X. cbn [fst] in X. cbv zeta.
  match goal with |- info_same _ (fst (match ?q with Ok _ => _ | Throw _ => _ | UB => _ | Diverge => _ end)) => destruct q as [[total t3]| | |] end; try exact X.
  pose proof (extract_any e1 (e0 :: r) ph) as Y. destruct (extractEdges_from e1 (e0 :: r) ph) as [e2 [ed2| | |]]; try exact (info_trans X Y).
  exact (info_trans (info_trans X Y) (putTables_any _ _)).
Qed.
Lemma setMac_any lb name en ph co cp pr i (e : element) :
  mfind sltb name (es_dict (lb_es lb)) = Some i -> nth_error (es_list (lb_es lb)) i = Some e ->
  exists e', info_same e e' /\ fst (setMassAttenuationCoefficients lb name en ph co cp pr) = with_list lb (set_nth (es_list (lb_es lb)) i e').
Proof.
  intros F E. unfold setMassAttenuationCoefficients. rewrite F, E.
  assert (SAME : with_list lb (set_nth (es_list (lb_es lb)) i e) = lb).
  { assert (S : set_nth (es_list (lb_es lb)) i e = es_list (lb_es lb)).
    { revert E. clear. revert i. generalize (es_list (lb_es lb)). intros l. induction l as [|a l IH]; intros [|i] E; cbn in *; try reflexivity; [congruence|]. now rewrite IH. }
    rewrite S. destruct lb as [[] ? ? ? ?]. reflexivity. }
  destruct (getMassAttenuationTables _ _) as [t| | |]; try (exists e; split; [apply info_refl|symmetry; exact SAME]).
  unfold seqOk. pose proof (putTables_any t e) as P. destruct (putTables t e) as [e1 [[]| | |]]; try (exists e1; split; [exact P|reflexivity]).
  pose proof (merge_any e1 t en ph co cp pr) as M. destruct (mergeTables e1 t en ph co cp pr) as [e2 r]. exists e2. split; [exact (info_trans P M)|reflexivity].
Qed.
End Frame.
