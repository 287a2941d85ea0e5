(** The answers of an element at the energies given: all of them. *)
From Coq Require Import Ascii String List ZArith Reals Bool Arith Lia Lra Sorted.
From Verif Require Import Base.Num Base.Res Base.SMap Base.Str Base.Text Model.Shell Model.Specfile Model.EPDL97 Model.Element Model.Elements Model.ElementsFiles
  Spec.ShellSpec Spec.MaterialSpec Spec.ElementSpec Spec.MergeSpec Proofs.MathProofs Proofs.ElementProofs Proofs.ElementProofs2 Proofs.ElementProofs3 Proofs.ElementProofs4 Proofs.ElementProofs8 Proofs.ElementsProofs Proofs.InitProofs Proofs.InitProofs4 Proofs.EPDL97Proofs9 Proofs.MergeProofs Proofs.MergeProofs2 Proofs.MergeProofs3 Proofs.MergeProofs4 Proofs.MergeProofs5.
Import ListNotations.
Set Implicit Arguments.
Local Open Scope string_scope.
Local Open Scope R_scope.
Local Existing Instance RNum.

Definition share (photo tot sh : list R) (j k : nat) : R := if Rltb 0 (nth (j + k) tot 0) then nth k photo 0 * (nth (j + k) sh 0 / nth (j + k) tot 0) else 0.
Lemma seq_from j n : seq j n = map (fun k => (j + k)%nat) (seq 0 n).
Proof. induction n as [|n IH]; [reflexivity|]. rewrite !seq_S, IH, map_app. reflexivity. Qed.
Lemma shared_split j n (photo tot sh : list R) : shared false j j (j + n) photo tot sh = (map (fun i => nth i sh 0%R) (seq 0 j) ++ map (share photo tot sh j) (seq 0 n))%list.
Proof.
  unfold shared. rewrite seq_app, map_app. f_equal.
  - apply map_ext_in. intros i Hi. apply in_seq in Hi. destruct (Nat.ltb_spec i j); [reflexivity|lia].
  - cbn [Nat.add]. rewrite seq_from, map_map. apply map_ext. intros k. destruct (Nat.ltb_spec (j + k) j); [lia|]. replace (j + k - j)%nat with k by lia. reflexivity.
Qed.
Lemma countBelow_stop (x : R) : forall (G : list R) j j0, countBelow G x j = Ok j0 -> exists g, nth_error G (j0 - j) = Some g /\ ~ g < x.
Proof.
  induction G as [|g G IH]; intros j j0 H; cbn [countBelow] in H; [discriminate|]. change (nltb g x) with (Rltb g x) in H. destruct (Rltb_spec g x) as [L|L].
  - destruct (IH _ _ H) as (y & A & B). destruct (countBelow_spec _ _ _ H) as (C & _). replace (j0 - j)%nat with (S (j0 - S j)) by lia. exists y. split; [exact A|exact B].
  - injection H as <-. rewrite Nat.sub_diag. exists g. split; [reflexivity|exact L].
Qed.
Lemma nth_seq_map {A} (f : nat -> A) n k : (k < n)%nat -> nth_error (map f (seq 0 n)) k = Some (f k).
Proof. intros H. apply map_nth_error. rewrite (nth_error_nth' _ 0%nat) by (rewrite seq_length; exact H). now rewrite seq_nth. Qed.
(** the parts of a successful computation *)
Lemma computeMu_build (e : element) (E : R) (p : string -> R) co cp pr : existsb (fun kv => Nat.ltb 0 (length (snd kv))) (el_ppE e) = true ->
  (forall s, In s photoShells -> partialValue e E s = Ok (p s)) ->
  (exists y, vlookup "coherent" (el_mu e) = Ok y /\ otherValue true (el_muE e) y E = Ok co) ->
  (exists y, vlookup "compton" (el_mu e) = Ok y /\ otherValue true (el_muE e) y E = Ok cp) ->
  (exists y, vlookup "pair" (el_mu e) = Ok y /\ otherValue true (el_muE e) y E = Ok pr) ->
  exists mu, computeMu e E = Ok mu /\ (forall s, In s photoShells -> value_or_0 s mu = p s) /\
    value_or_0 "coherent" mu = co /\ value_or_0 "compton" mu = cp /\ value_or_0 "pair" mu = pr.
Proof.
  intros X P (y1 & A1 & B1) (y2 & A2 & B2) (y3 & A3 & B3).
  assert (GP : getPartialPhotoelectric e E = Ok (mset_all sltb (map (fun s => (s, p s)) photoShells) [])).
  { unfold getPartialPhotoelectric. assert (Q : rmapM (fun s => rbind (partialValue e E s) (fun v => Ok (s, v))) photoShells = Ok (map (fun s => (s, p s)) photoShells)).
    { revert P. generalize photoShells. intros l. induction l as [|s l IH]; intros P; [reflexivity|]. cbn [rmapM map]. rewrite (P s (or_introl eq_refl)). cbn [rbind]. rewrite IH; [reflexivity|]. intros q Hq. apply P. right. exact Hq. }
    rewrite Q. reflexivity. }
  assert (CM : exists mu, computeMu e E = Ok mu).
  { unfold computeMu. rewrite X, GP. cbn [rbind rmapM]. rewrite A1. cbn [rbind]. rewrite B1. cbn [rbind]. rewrite A2. cbn [rbind]. rewrite B2. cbn [rbind]. rewrite A3. cbn [rbind]. rewrite B3. cbn [rbind]. cbv zeta. eexists. reflexivity. }
  destruct CM as [mu CM]. exists mu. split; [exact CM|]. apply computeMu_spec in CM as (_ & (part & PP & VP) & S & _). rewrite X in PP. rewrite GP in PP. apply Ok_inj in PP.
  split.
  - intros s Hs. rewrite (vSome _ _ _ (VP s Hs)). rewrite <- PP.
    assert (MF : mfind sltb s (mset_all sltb (map (fun s => (s, p s)) photoShells) []) = Some (p s)).
    { apply mset_all_In; [rewrite map_map; cbn [fst]; rewrite map_id; exact photoShells_nodup|]. apply in_map_iff. exists s. auto. }
    rewrite val0_R. exact (vSome _ _ _ MF).
  - assert (SC : forall k y v, In k scattering_names -> vlookup k (el_mu e) = Ok y -> otherValue true (el_muE e) y E = Ok v -> value_or_0 k mu = v).
    { intros k y v K A B. destruct (S k K) as (y' & v' & A' & B' & F). rewrite A in A'. apply Ok_inj in A'. subst y'. rewrite B in B'. apply Ok_inj in B'. subst v'. exact (vSome _ _ _ F). }
    split; [|split]; eapply SC; try eassumption; cbn; tauto.
Qed.
Lemma existsb_grid (e : @element RNum) s g : mfind sltb s (el_ppE e) = Some g -> (0 < length g)%nat -> existsb (fun kv => Nat.ltb 0 (length (snd kv))) (el_ppE e) = true.
Proof. intros H L. apply mfind_some_In in H as [k I]. apply existsb_exists. exists (k, g). split; [exact I|]. apply Nat.ltb_lt, L. Qed.
