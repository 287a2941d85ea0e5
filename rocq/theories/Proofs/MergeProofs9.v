(** Merging data with edges. *)
From Coq Require Import Ascii String List ZArith Reals Bool Arith Lia Lra Sorted.
From Verif Require Import Base.Num Base.Res Base.SMap Base.Str Base.Text Model.Shell Model.Specfile Model.EPDL97 Model.Element Model.Elements Model.ElementsFiles
  Spec.ShellSpec Spec.MaterialSpec Spec.ElementSpec Spec.MergeSpec Spec.EdgeSpec Proofs.MathProofs Proofs.ElementProofs Proofs.ElementProofs2 Proofs.ElementProofs3 Proofs.ElementProofs4 Proofs.ElementProofs8 Proofs.ElementsProofs Proofs.InitProofs Proofs.InitProofs4 Proofs.EPDL97Proofs9 Proofs.MergeProofs Proofs.MergeProofs2 Proofs.MergeProofs3 Proofs.MergeProofs4 Proofs.MergeProofs5 Proofs.MergeProofs6 Proofs.EdgeProofs.
Import ListNotations.
Set Implicit Arguments.
Local Open Scope string_scope.

Section G.
Context {N : Num}.
Lemma edgeLoop_out : forall (cands : list (num * Z)) keys (b b' : list (string * num)) out, (forall k, val0 b k = val0 b' k) -> snd (edgeLoop cands keys b out) = snd (edgeLoop cands keys b' out).
Proof.
  induction cands as [|[en i] c IH]; intros [|s keys] b b' out H; cbn [edgeLoop]; try reflexivity. cbv zeta.
  rewrite !mtouch_val0, H. apply IH. intros k. rewrite !mtouch_val0. apply H.
Qed.
Lemma extract_inv (e e2 : @element N) energy photo ed : extractEdges_from e energy photo = (e2, Ok ed) -> length photo = length energy /\ energy <> [] /\ el_binding e <> [] /\
  let L := edgeLoop (rev (edgeCandidates 0 energy photo [])) shellKeys (el_binding e) [] in e2 = with_binding e (fst L) /\ ed = snd L.
Proof.
  intros H. unfold extractEdges_from in H. destruct photo as [|p photo]; [discriminate|]. destruct energy as [|x energy]; [discriminate|]. cbn [length Nat.ltb Nat.leb] in H.
  destruct (Nat.eqb_spec (S (length energy)) (S (length photo))) as [E|E]; [|discriminate]. cbn [negb] in H. assert (B : el_binding e <> []) by (intros B; rewrite B in H; discriminate).
  destruct (el_binding e) as [|q b0]; [contradiction|]. cbn [length Nat.ltb Nat.leb] in H. cbv zeta in *.
  split; [cbn; congruence|]. split; [discriminate|]. split; [exact B|]. destruct (edgeLoop _ _ _ _) as [b out]. injection H as <- <-. cbn [fst snd]. split; reflexivity.
Qed.
Lemma edgeLoop_not_nil (cands : list (num * Z)) : forall keys (b : list (string * num)) out, b <> [] -> fst (edgeLoop cands keys b out) <> [].
Proof.
  induction cands as [|[en i] c IH]; intros [|s keys] b out H; cbn [edgeLoop]; try exact H. cbv zeta. apply IH. destruct b as [|[k v] b]; [contradiction|]. unfold mtouch. destruct (mmem _ _ _); [discriminate|].
  intros Q. apply (f_equal (mfind sltb s)) in Q. rewrite sfind_same in Q. discriminate.
Qed.
Lemma extract_again (e e2 : @element N) energy photo ed : extractEdges_from e energy photo = (e2, Ok ed) -> exists e3, extractEdges_from e2 energy photo = (e3, Ok ed).
Proof.
  intros H. apply extract_inv in H as (L & NE & NB & H). cbv zeta in H. destruct H as [-> ->]. 
  rewrite (@extract_run N _ energy photo NE L); [|cbn [el_binding with_binding]; apply edgeLoop_not_nil, NB]. cbv zeta. eexists. f_equal. f_equal. cbn [el_binding with_binding]. apply edgeLoop_out. intros k. apply edgeLoop_val0.
Qed.
Lemma edgeLoop_mfind : forall (cands : list (num * Z)) keys (b : list (string * num)) out k v, mfind sltb k b = Some v -> mfind sltb k (fst (edgeLoop cands keys b out)) = Some v.
Proof.
  induction cands as [|[en i] c IH]; intros [|s keys] b out k v H; cbn [edgeLoop]; try exact H. cbv zeta. apply IH. unfold mtouch. unfold mmem. destruct (mfind sltb s b) eqn:F; [exact H|]. rewrite sfind_other; [exact H|]. congruence.
Qed.
(** a fold that replaces some columns *)
Lemma some_fold (g : string -> option (list num -> list num)) : forall shells (t : list (string * list num)), NoDup shells ->
  let t' := fold_left (fun t s => match g s with Some f => mset sltb s (f (vat t s)) t | None => t end) shells t in
  (forall s, In s shells -> vat t' s = match g s with Some f => f (vat t s) | None => vat t s end) /\ (forall k, ~ In k shells -> vat t' k = vat t k).
Proof.
  induction shells as [|s r IH]; intros t ND; cbn zeta; cbn [fold_left]; [split; [contradiction|reflexivity]|]. inversion ND as [|? ? NI ND']; subst.
  set (t1 := match g s with Some f => mset sltb s (f (vat t s)) t | None => t end). assert (O : forall k, k <> s -> vat t1 k = vat t k) by (intros k K; unfold t1; destruct (g s); [apply vat_other, K|reflexivity]).
  assert (S1 : vat t1 s = match g s with Some f => f (vat t s) | None => vat t s end) by (unfold t1; destruct (g s); [apply vat_same|reflexivity]).
  destruct (IH t1 ND') as [A B]. cbn zeta in A, B. split.
  - intros k [->|K].
    + rewrite (B k NI). exact S1.
    + rewrite (A k K). rewrite O; [reflexivity|]. intros ->. contradiction.
  - intros k K. rewrite B; [|intros X; apply K; right; exact X]. apply O. intros ->. apply K. left. reflexivity.
Qed.
Definition replaced (edges : list (string * (num * Z))) (j n : nat) (photo total : list num) (s : string) : option (list num -> list num) :=
  match edges with [] => Some (shared false j j n photo total) | _ => match mfind sltb s edges with Some (_, idx) => Some (shared true j (j + Z.to_nat idx + 1) n photo total) | None => None end end.
Lemma fold_ext {A B} (f g : A -> B -> A) l a : (forall a b, f a b = g a b) -> fold_left f l a = fold_left g l a.
Proof. intros H. revert a. induction l as [|b l IH]; intros a; cbn; [reflexivity|]. rewrite H. apply IH. Qed.
Lemma sharedShells_any edges j n photo total (t : list (string * list num)) : let t' := sharedShells edges j n photo total t in
  (forall s, In s photoShells -> vat t' s = match replaced edges j n photo total s with Some f => f (vat t s) | None => vat t s end) /\ (forall k, ~ In k photoShells -> vat t' k = vat t k).
Proof.
  cbv zeta. unfold sharedShells. rewrite (@fold_ext _ _ _ (fun t s => match replaced edges j n photo total s with Some f => mset sltb s (f (vat t s)) t | None => t end)).
  - apply (@some_fold (replaced edges j n photo total) photoShells t photoShells_nodup).
  - intros a b. unfold replaced. destruct edges as [|x ed]; [reflexivity|]. destruct (mfind sltb b (x :: ed)) as [[y z]|]; reflexivity.
Qed.
Lemma overwrite_any j n (given old v : list num) : overwrite j n given old = Ok v -> (n - j <= length given)%nat /\ v = (firstn j old ++ firstn (n - j) given)%list.
Proof. unfold overwrite. destruct (Nat.ltb_spec (length given) (n - j)); [discriminate|]. intros H'. injection H' as <-. split; [lia|reflexivity]. Qed.
Lemma gridLoop_length edges (b : list (string * num)) ext : forall es k prev, length (gridLoop edges b ext k prev es) = length es.
Proof. induction es as [|x es IH]; intros k prev; cbn [gridLoop length]; [reflexivity|]. cbv zeta. cbn [length]. now rewrite IH. Qed.

Lemma merge_gen (e1 e' : @element N) t (energy photo co cp pr : list num) : mergeTables e1 t energy photo co cp pr = (e', Ok tt) ->
  exists e0 j0 e2 e3 edges t2 T, nth_error energy 0 = Some e0 /\ countBelow (vat t "energy") e0 0 = Ok j0 /\
    extractEdges_from e1 energy photo = (e2, Ok edges) /\ extractEdges_from e2 energy photo = (e3, Ok edges) /\
    let j := (j0 - 1)%nat in let G := vat t "energy" in let n := length energy in
    let grid := gridLoop edges (Element.getBindingEnergies e2) (Nat.ltb 0 j) 0 (nth (j - 1) G n0) energy in
    let m := length (firstn j G ++ grid) in
    getMassAttenuationCoefficients_vec e2 (firstn j G ++ grid)%list = Ok t2 /\ putTables T e3 = (e', Ok tt) /\ vat T "energy" = vat t2 "energy" /\
    (forall k v, In (k, v) [("coherent", co); ("compton", cp); ("pair", pr); ("photoelectric", photo)] -> (m - j <= length v)%nat /\ vat T k = (firstn j (vat t2 k) ++ firstn (m - j) v)%list) /\
    forall s, In s photoShells -> vat T s = match replaced edges j m photo (vat t2 "photoelectric") s with Some f => f (vat t2 s) | None => vat t2 s end.
Proof.
  intros H. unfold mergeTables in H. destruct energy as [|e0 es]; [injection H; discriminate|].
  destruct (countBelow (vat t "energy") e0 0) as [j0| | |] eqn:CB; try (injection H; discriminate).
  destruct (extractEdges_from e1 (e0 :: es) photo) as [e2 [ed| | |]] eqn:X; try (injection H; discriminate). destruct (extract_again _ _ _ X) as [e3 X2]. cbv zeta in H. rewrite X2 in H. unfold newGrid in H.
  set (grid := gridLoop ed (Element.getBindingEnergies e2) (Nat.ltb 0 (j0 - 1)) 0 (nth (j0 - 1 - 1) (vat t "energy") n0) (e0 :: es)) in *. set (m := length (firstn (j0 - 1) (vat t "energy") ++ grid)) in *.
  match type of H with (match ?q with Ok _ => _ | Throw _ => _ | UB => _ | Diverge => _ end) = _ => destruct q as [[total t3]| | |] eqn:Q end; try (injection H; discriminate).
  apply rbind_Ok in Q as (t2 & V & Q). apply rbind_Ok in Q as (h & Oh & Q). apply rbind_Ok in Q as (k & Ok1 & Q). apply rbind_Ok in Q as (p & Op & Q). apply rbind_Ok in Q as (f & Of & Q).
  apply overwrite_any in Oh as (Lh & Eh). apply overwrite_any in Ok1 as (Lk & Ek). apply overwrite_any in Op as (Lp & Ep). apply overwrite_any in Of as (Lf & Ef).
  apply Ok_inj in Q. injection Q as <- <-. set (t3 := mset_all sltb [("coherent", h); ("compton", k); ("pair", p); ("photoelectric", f)] t2) in *.
  destruct (sharedShells_any ed (j0 - 1) m photo (vat t2 "photoelectric") t3) as [SH OT].
  exists e0, j0, e2, e3, ed, t2, (sharedShells ed (j0 - 1) m photo (vat t2 "photoelectric") t3). split; [reflexivity|]. split; [first [exact CB|reflexivity]|]. split; [first [exact X|reflexivity]|]. split; [exact X2|]. cbv zeta. fold grid m.
  split; [exact V|]. split; [exact H|].
  assert (NS : forall q, In q ["energy"; "coherent"; "compton"; "pair"; "photoelectric"] -> ~ In q photoShells) by (cbn; intros q Hq; intuition (subst; discriminate)).
  assert (V3 : forall q, ~ In q ["coherent"; "compton"; "pair"; "photoelectric"] -> vat t3 q = vat t2 q).
  { intros q Hq. unfold t3. cbn [mset_all fold_left fst snd]. rewrite !vat_other; [reflexivity|..]; intros ->; apply Hq; cbn; tauto. }
  assert (W : vat t3 "coherent" = h /\ vat t3 "compton" = k /\ vat t3 "pair" = p /\ vat t3 "photoelectric" = f).
  { unfold t3. cbn [mset_all fold_left fst snd]. repeat split; repeat (rewrite vat_other by discriminate); apply vat_same. }
  destruct W as (W1 & W2 & W3 & W4).
  split; [rewrite OT by (apply NS; cbn; tauto); apply V3; cbn; intuition discriminate|]. split.
  - intros q v I. cbn in I. destruct I as [I|[I|[I|[I|[]]]]]; injection I as <- <-; rewrite OT by (apply NS; cbn; tauto); (split; [assumption|]); congruence.
  - intros s Hs. rewrite (SH s Hs). rewrite V3; [reflexivity|]. intros Q. apply (NS s); [right; exact Q|exact Hs].
Qed.
End G.
