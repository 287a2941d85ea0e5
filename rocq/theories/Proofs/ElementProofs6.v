(** The cascade cache (C27). *)
From Coq Require Import Ascii String List ZArith Bool Reals Lra Lia Sorted.
From Verif Require Import Base.Num Base.Res Base.RSum Base.SMap Base.Str Base.ListLemmas
  Model.Shell Model.Element Spec.ShellSpec Spec.ElementSpec Proofs.ShellProofs Proofs.ShellProofs2 Proofs.ShellProofs3
  Proofs.ElementProofs Proofs.ElementProofs3 Proofs.ElementProofs4 Proofs.ElementProofs5.
Import ListNotations.
Local Open Scope string_scope.
Local Open Scope R_scope.
Local Existing Instance RNum.

Notation el := (@element RNum).
Notation tab := (list (string * R)).
Notation linesR := (list (string * list (string * R))).

Definition lineEnergy (e : el) (k lab : string) : res R :=
  match mfind sltb k (el_binding e) with
  | None => Throw DomainError
  | Some energy0 =>
      if Rleb energy0 0 then Throw DomainError else
      rbind (lastTwo lab) (fun from => rbind (fromEnergy e from) (fun energy1 => Ok (energy0 - energy1)))
  end.
Definition mkl (en rate : R) : tab := [("energy", en); ("rate", rate)].

Lemma lineStep_eq (e : el) k (v w r : R) sh (out : linesR) lab : getFluorescenceYield sh = Ok w -> mfind sltb lab out = None ->
  lineStep e true k v sh out (lab, r) =
  if Rltb 0 (r * v * w) then rbind (lineEnergy e k lab) (fun en => Ok (mset sltb lab (mkl en (r * v * w)) out)) else Ok out.
Proof.
  intros Hw Ho. unfold lineStep. cbn [fst snd]. rewrite Hw. cbn [rbind]. 
  change (nltb n0 (nmul (nmul r v) w)) with (Rltb 0 (r * v * w)). change (nmul (nmul r v) w) with (r * v * w).
  destruct (Rltb 0 (r * v * w)); [|reflexivity]. unfold lineEnergy.
  change (@mfind string (@num RNum) sltb k (el_binding e)) with (@mfind string R sltb k (el_binding e)).
  destruct (@mfind string R sltb k (el_binding e)) as [b|]; [|reflexivity].
  change (nleb b n0) with (Rleb b 0). destruct (Rleb b 0); [reflexivity|].
  destruct (lastTwo lab) as [from| | |]; [|reflexivity|reflexivity|reflexivity]. cbn [rbind].
  destruct (fromEnergy e from) as [e1| | |]; [|reflexivity|reflexivity|reflexivity]. cbn [rbind].
  f_equal. change (@mfind string (list (string * @num RNum)) sltb lab out) with (@mfind string tab sltb lab out). rewrite Ho. reflexivity.
Qed.

(** lines of one shell *)
Section OneShell.
Variables (e : el) (k : string) (v w : R) (sh : @shell RNum).
Hypothesis Hw : getFluorescenceYield sh = Ok w.
Definition energies_ok (fl : tab) : Prop := forall lab r, In (lab, r) fl -> 0 < r * v * w -> exists en, lineEnergy e k lab = Ok en.
Definition has_lines (fl : tab) (out : linesR) : Prop :=
  forall lab r, In (lab, r) fl ->
    if Rltb 0 (r * v * w) then exists en, lineEnergy e k lab = Ok en /\ mfind sltb lab out = Some (mkl en (r * v * w))
    else mfind sltb lab out = None.
Lemma oneShell_spec (fl : tab) : forall out out' : linesR, NoDup (map fst fl) -> (forall lab, In lab (map fst fl) -> mfind sltb lab out = None) ->
  rfold (lineStep e true k v sh) fl out = Ok out' ->
  has_lines fl out' /\ (forall lab, ~ In lab (map fst fl) -> mfind sltb lab out' = mfind sltb lab out) /\ (msorted sltb out -> msorted sltb out').
Proof.
  induction fl as [|[lab r] fl IH]; intros out out' Hn Hf H.
  - cbn in H. apply Ok_inj in H. subst out'. split; [intros ? ? []|]. split; auto.
  - inversion Hn as [|? ? Hl Hn']; subst. cbn [rfold] in H. rewrite (lineStep_eq e k v w r sh out lab Hw) in H by (apply Hf; left; reflexivity).
    destruct (Rltb 0 (r * v * w)) eqn:P.
    + destruct (lineEnergy e k lab) as [en| | |] eqn:EN; try discriminate. cbn [rbind] in H.
      assert (F : forall q, q <> lab -> mfind sltb q (mset sltb lab (mkl en (r * v * w)) out) = mfind sltb q out) by (intros q Hq; apply sfind_other; auto).
      apply IH in H as (H1 & H2 & H3); [|exact Hn'|].
      * assert (L : mfind sltb lab out' = Some (mkl en (r * v * w))).
        { rewrite H2 by exact Hl. apply (@mfind_mset_same string tab sltb sltb_total). }
        split; [|split].
        -- intros q s [E|Hq]; [injection E as <- <-; rewrite P; exists en; split; assumption|apply H1, Hq].
        -- intros q Hq. rewrite H2 by (intros C; apply Hq; right; exact C). apply F. intros ->. apply Hq. left. reflexivity.
        -- intros Hs. apply H3. apply smset_sorted, Hs.
      * intros q Hq. rewrite F by (intros ->; contradiction). apply Hf. right. exact Hq.
    + cbn [rbind] in H. apply IH in H as (H1 & H2 & H3); [|exact Hn'|].
      * split; [|split].
        -- intros q s [E|Hq]; [injection E as <- <-; rewrite P|apply H1, Hq]. rewrite H2 by exact Hl. apply Hf. left. reflexivity.
        -- intros q Hq. apply H2. intros C. apply Hq. right. exact C.
        -- exact H3.
      * intros q Hq. apply Hf. right. exact Hq.
Qed.
Lemma oneShell_ok (fl : tab) : forall out : linesR, NoDup (map fst fl) -> (forall lab, In lab (map fst fl) -> mfind sltb lab out = None) ->
  energies_ok fl -> exists out', rfold (lineStep e true k v sh) fl out = Ok out'.
Proof.
  induction fl as [|[lab r] fl IH]; intros out Hn Hf H; [exists out; reflexivity|].
  inversion Hn as [|? ? Hl Hn']; subst. cbn [rfold]. rewrite (lineStep_eq e k v w r sh out lab Hw) by (apply Hf; left; reflexivity).
  assert (H' : energies_ok fl) by (intros q s Hq; apply H; right; exact Hq).
  destruct (Rltb 0 (r * v * w)) eqn:P.
  - apply Rltb_true in P. destruct (H lab r (or_introl eq_refl) P) as [en ->]. cbn [rbind]. apply IH; [exact Hn'| |exact H'].
    intros q Hq. rewrite sfind_other by (intros ->; contradiction). apply Hf. right. exact Hq.
  - cbn [rbind]. apply IH; [exact Hn'| |exact H']. intros q Hq. apply Hf. right. exact Hq.
Qed.
End OneShell.

(** all shells *)
Definition the_shell (e : el) (k : string) (sh : @shell RNum) : Prop := mfind sltb k (el_shells e) = Some sh.
Definition labels (e : el) (k : string) : list string :=
  match mfind sltb k (el_shells e) with Some sh => map fst (sh_fluo sh) | None => [] end.
Definition yield (e : el) (k : string) : R :=
  match mfind sltb k (el_shells e) with Some sh => value_or_0 "omega" (sh_const sh) | None => 0 end.
Definition fluo (e : el) (k lab : string) : R :=
  match mfind sltb k (el_shells e) with Some sh => value_or_0 lab (sh_fluo sh) | None => 0 end.
Definition fluo_table (e : el) (k : string) : tab :=
  match mfind sltb k (el_shells e) with Some sh => sh_fluo sh | None => [] end.

Lemma good_yield (e : el) k sh : good_shells e -> mfind sltb k (el_shells e) = Some sh -> In k (map fst (el_shells e)) ->
  getFluorescenceYield sh = Ok (yield e k) /\ msorted sltb (sh_fluo sh) /\ Forall (fun kv => 0 <= snd kv) (sh_fluo sh) /\ 0 <= yield e k.
Proof.
  intros G H Hk. destruct (good_find e k G Hk) as (sh' & H' & P1 & P2 & P3). rewrite H in H'. apply some_inj in H'. subst sh'.
  destruct (reachable_const _ _ (physical_reachable _ _ P1)) as [K1 K2].
  destruct (physical_inv _ _ P1) as ((F1 & F2 & F3) & _).
  unfold yield. rewrite H. split; [|split; [|split]].
  - unfold getFluorescenceYield. change (@mfind string (@num RNum) sltb "omega" (sh_const sh)) with (@mfind string R sltb "omega" (sh_const sh)).
    rewrite (value_or_0_Some "omega" (sh_const sh)); [reflexivity|]. intros C. apply smfind_None in C; [|exact K2]. apply C.
    change (In "omega" (mkeys (sh_const sh))). rewrite K1. unfold constant_names. apply in_app_iff. right. left. reflexivity.
  - assumption.
  - assumption.
  - apply value_nonneg; [exact P2|exact K2].
Qed.

Definition lines_at (e : el) (f : string -> R) (ks : list string) (out : linesR) : Prop :=
  forall k, In k ks -> has_lines e k (f k) (yield e k) (fluo_table e k) out.
Lemma directLines_cons (e : el) k (v : R) l out : 
  rfold (fun out (kv : string * @num RNum) => rbind (of_opt (mfind sltb (fst kv) (el_shells e))) (fun sh =>
    rfold (lineStep e true (fst kv) (snd kv) sh) (sh_fluo sh) out)) ((k, v) :: l) out =
  rbind (rbind (of_opt (mfind sltb k (el_shells e))) (fun sh => rfold (lineStep e true k v sh) (sh_fluo sh) out))
    (rfold (fun out (kv : string * @num RNum) => rbind (of_opt (mfind sltb (fst kv) (el_shells e))) (fun sh =>
      rfold (lineStep e true (fst kv) (snd kv) sh) (sh_fluo sh) out)) l).
Proof. reflexivity. Qed.
Definition disjoint_labels (e : el) (ks : list string) : Prop :=
  forall k k' lab, In k ks -> In k' ks -> In lab (map fst (fluo_table e k)) -> In lab (map fst (fluo_table e k')) -> k = k'.
Lemma allShells_spec (e : el) (f : string -> R) : good_shells e -> forall ks (out out' : linesR), incl ks (map fst (el_shells e)) -> NoDup ks -> disjoint_labels e ks ->
  (forall k lab, In k ks -> In lab (map fst (fluo_table e k)) -> mfind sltb lab out = None) ->
  rfold (fun out (kv : string * @num RNum) => rbind (of_opt (mfind sltb (fst kv) (el_shells e))) (fun sh =>
    rfold (lineStep e true (fst kv) (snd kv) sh) (sh_fluo sh) out)) (map (fun k => (k, f k)) ks) out = Ok out' ->
  lines_at e f ks out' /\ (forall lab, (forall k, In k ks -> ~ In lab (map fst (fluo_table e k))) -> mfind sltb lab out' = mfind sltb lab out) /\
  (msorted sltb out -> msorted sltb out').
Proof.
  intros G. induction ks as [|k ks IH]; intros out out' Hi Hn Hd Hf H.
  - cbn in H. apply Ok_inj in H. subst. split; [intros ? []|]. split; auto.
  - cbn [map] in H. rewrite directLines_cons in H.
    assert (Hk : In k (map fst (el_shells e))) by (apply Hi; left; reflexivity).
    destruct (good_find e k G Hk) as (sh & Hsh & _). destruct (good_yield e k sh G Hsh Hk) as (Y1 & Y2 & Y3 & Y4).
    assert (FT : fluo_table e k = sh_fluo sh) by (unfold fluo_table; rewrite Hsh; reflexivity).
    rewrite Hsh in H. cbn [of_opt rbind] in H.
    destruct (rfold (lineStep e true k (f k) sh) (sh_fluo sh) out) as [out1| | |] eqn:E; try discriminate. cbn [rbind] in H.
    inversion Hn as [|? ? Hk' Hn']; subst.
    apply (oneShell_spec e k (f k) (yield e k) sh Y1) in E as (A1 & A2 & A3).
    + apply IH in H as (B1 & B2 & B3).
      * split; [|split].
        -- intros k' [<-|Hk1]; [|apply B1, Hk1]. rewrite FT. intros lab r Hr. specialize (A1 lab r Hr).
           assert (Q : mfind sltb lab out' = mfind sltb lab out1).
           { apply B2. intros k' Hk1 C. apply Hk'. rewrite (Hd k k' lab); [exact Hk1|left; reflexivity|right; exact Hk1| |exact C].
             rewrite FT. apply in_map_iff. exists (lab, r). split; [reflexivity|exact Hr]. }
           rewrite Q. exact A1.
        -- intros lab Hl. rewrite B2 by (intros k' Hk1; apply Hl; right; exact Hk1). apply A2. rewrite <- FT. apply Hl. left. reflexivity.
        -- intros Hs. apply B3, A3, Hs.
      * intros x Hx. apply Hi. right. exact Hx.
      * exact Hn'.
      * intros a b lab Ha Hb. apply Hd; right; assumption.
      * intros k' lab Hk1 Hl. rewrite A2; [apply (Hf k'); [right; exact Hk1|exact Hl]|].
        intros C. apply Hk'. rewrite (Hd k k' lab); [exact Hk1|left; reflexivity|right; exact Hk1|rewrite FT; exact C|exact Hl].
    + exact (smsorted_NoDup Y2).
    + intros lab Hl. apply (Hf k); [left; reflexivity|rewrite FT; exact Hl].
Qed.
Lemma allShells_ok (e : el) (f : string -> R) : good_shells e -> forall ks (out : linesR), incl ks (map fst (el_shells e)) -> NoDup ks -> disjoint_labels e ks ->
  (forall k lab, In k ks -> In lab (map fst (fluo_table e k)) -> mfind sltb lab out = None) ->
  (forall k, In k ks -> energies_ok e k (f k) (yield e k) (fluo_table e k)) ->
  exists out', rfold (fun out (kv : string * @num RNum) => rbind (of_opt (mfind sltb (fst kv) (el_shells e))) (fun sh =>
    rfold (lineStep e true (fst kv) (snd kv) sh) (sh_fluo sh) out)) (map (fun k => (k, f k)) ks) out = Ok out'.
Proof.
  intros G. induction ks as [|k ks IH]; intros out Hi Hn Hd Hf H; [exists out; reflexivity|].
  cbn [map]. rewrite directLines_cons.
  assert (Hk : In k (map fst (el_shells e))) by (apply Hi; left; reflexivity).
  destruct (good_find e k G Hk) as (sh & Hsh & _). destruct (good_yield e k sh G Hsh Hk) as (Y1 & Y2 & Y3 & Y4).
  assert (FT : fluo_table e k = sh_fluo sh) by (unfold fluo_table; rewrite Hsh; reflexivity).
  rewrite Hsh. cbn [of_opt rbind]. inversion Hn as [|? ? Hk' Hn']; subst.
  assert (Nd : NoDup (map fst (sh_fluo sh))) by exact (smsorted_NoDup Y2).
  assert (Nf : forall lab, In lab (map fst (sh_fluo sh)) -> mfind sltb lab out = None).
  { intros lab Hl. apply (Hf k); [left; reflexivity|rewrite FT; exact Hl]. }
  destruct (oneShell_ok e k (f k) (yield e k) sh Y1 (sh_fluo sh) out Nd Nf) as [out1 E].
  { rewrite <- FT. apply H. left. reflexivity. }
  rewrite E. cbn [rbind]. destruct (oneShell_spec e k (f k) (yield e k) sh Y1 (sh_fluo sh) out out1 Nd Nf E) as (A1 & A2 & A3).
  apply IH.
  - intros x Hx. apply Hi. right. exact Hx.
  - exact Hn'.
  - intros a b lab Ha Hb. apply Hd; right; assumption.
  - intros k' lab Hk1 Hl. rewrite A2; [apply (Hf k'); [right; exact Hk1|exact Hl]|].
    intros C. apply Hk'. rewrite (Hd k k' lab); [exact Hk1|left; reflexivity|right; exact Hk1|rewrite FT; exact C|exact Hl].
  - intros k' Hk1. apply H. right. exact Hk1.
Qed.
