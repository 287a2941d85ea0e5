(** The cascade cache (C27), continued. *)
From Coq Require Import Ascii String List ZArith Bool Reals Lra Lia Sorted.
From Verif Require Import Base.Num Base.Res Base.RSum Base.SMap Base.Str Base.ListLemmas
  Model.Shell Model.Element Spec.ShellSpec Spec.ElementSpec Proofs.ShellProofs Proofs.ShellProofs2 Proofs.ShellProofs3
  Proofs.ElementProofs Proofs.ElementProofs3 Proofs.ElementProofs4 Proofs.ElementProofs5 Proofs.ElementProofs6.
Import ListNotations.
Local Open Scope string_scope.
Local Open Scope R_scope.
Local Existing Instance RNum.

Definition own (e : el) (lab : string) : option string :=
  find (fun k => existsb (String.eqb lab) (map fst (fluo_table e k))) (cascadeKeys e).
Definition rho (e : el) (f : string -> R) (lab : string) : R :=
  match own e lab with Some k => value_or_0 lab (fluo_table e k) * f k * yield e k | None => 0 end.
Definition en_of (e : el) (lab : string) : R :=
  match own e lab with Some k => match lineEnergy e k lab with Ok en => en | _ => 0 end | None => 0 end.

Lemma own_Some (e : el) lab k : own e lab = Some k -> In k (cascadeKeys e) /\ In lab (map fst (fluo_table e k)).
Proof.
  intros H. apply find_some in H as [H1 H2]. split; [exact H1|]. apply existsb_exists in H2 as (x & Hx & E). apply String.eqb_eq in E. subst. exact Hx.
Qed.
Lemma own_None (e : el) lab k : own e lab = None -> In k (cascadeKeys e) -> ~ In lab (map fst (fluo_table e k)).
Proof.
  intros H Hk C. pose proof (find_none _ _ H k Hk) as Q. cbn in Q.
  assert (existsb (String.eqb lab) (map fst (fluo_table e k)) = true) by (apply existsb_exists; exists lab; split; [exact C|apply String.eqb_refl]). congruence.
Qed.
Lemma fluo_sorted (e : el) k : good_shells e -> In k (cascadeKeys e) -> msorted sltb (fluo_table e k) /\ Forall (fun kv => 0 <= snd kv) (fluo_table e k) /\ 0 <= yield e k.
Proof.
  intros G Hk. rewrite (good_names e G) in Hk. destruct (good_find e k G Hk) as (sh & Hsh & _).
  destruct (good_yield e k sh G Hsh Hk) as (Y1 & Y2 & Y3 & Y4). unfold fluo_table. rewrite Hsh. split; [exact Y2|split; [exact Y3|exact Y4]].
Qed.
Lemma in_fluo (e : el) k lab : good_shells e -> In k (cascadeKeys e) -> In lab (map fst (fluo_table e k)) -> In (lab, value_or_0 lab (fluo_table e k)) (fluo_table e k).
Proof.
  intros G Hk H. destruct (fluo_sorted e k G Hk) as (S & _). apply in_map_iff in H as ((l & r) & E & H). cbn in E. subst l.
  rewrite (value_of_In lab r); assumption.
Qed.
Lemma rho_nonneg (e : el) f lab : good_shells e -> (forall k, In k (cascadeKeys e) -> 0 <= f k) -> 0 <= rho e f lab.
Proof.
  intros G Hf. unfold rho. destruct (own e lab) as [k|] eqn:O; [|lra]. apply own_Some in O as [Hk _].
  destruct (fluo_sorted e k G Hk) as (S1 & S2 & S3). apply Rmult_le_pos; [apply Rmult_le_pos|]; [apply value_nonneg; assumption|apply Hf, Hk|exact S3].
Qed.

(** a result of the line calculation described by its rates *)
Definition matches (e : el) (A : string -> R) (out : linesR) : Prop :=
  msorted sltb out /\ forall lab, mfind sltb lab out = if Rltb 0 (A lab) then Some (mkl (en_of e lab) (A lab)) else None.
Lemma matches_unique e A B o1 o2 : (forall lab, A lab = B lab) -> matches e A o1 -> matches e B o2 -> o1 = o2.
Proof.
  intros H [S1 F1] [S2 F2]. apply (@msorted_ext string tab sltb sltb_total); [assumption|assumption|]. intros k. rewrite F1, F2, H. reflexivity.
Qed.
Definition energies_for (e : el) (A : string -> R) : Prop :=
  forall lab k, own e lab = Some k -> 0 < A lab -> exists en, lineEnergy e k lab = Ok en.

Lemma direct_matches (e : el) (f : string -> R) (out : linesR) : good_shells e -> disjoint_labels e (cascadeKeys e) ->
  directLines e true (map (fun k => (k, f k)) (cascadeKeys e)) = Ok out -> matches e (rho e f) out /\ energies_for e (rho e f).
Proof.
  intros G D H. unfold directLines in H.
  destruct (allShells_spec e f G (cascadeKeys e) [] out) as (A1 & A2 & A3).
  - rewrite (good_names e G). apply incl_refl.
  - apply good_NoDup, G.
  - exact D.
  - reflexivity.
  - exact H.
  - assert (Q : forall lab k, own e lab = Some k -> if Rltb 0 (rho e f lab) then exists en, lineEnergy e k lab = Ok en /\ mfind sltb lab out = Some (mkl en (rho e f lab))
                  else mfind sltb lab out = None).
    { intros lab k O. destruct (own_Some _ _ _ O) as [Hk Hl]. unfold rho. rewrite O. apply (A1 k Hk). apply in_fluo; assumption. }
    split.
    + split; [apply A3, smsorted_nil|]. intros lab. destruct (own e lab) as [k|] eqn:O.
      * specialize (Q lab k O). destruct (Rltb 0 (rho e f lab)); [|exact Q]. destruct Q as (en & E1 & E2). rewrite E2.
        unfold en_of. rewrite O, E1. reflexivity.
      * rewrite A2 by (intros k Hk; apply own_None; assumption). unfold rho. rewrite O. destruct (Rltb_spec 0 0); [lra|reflexivity].
    + intros lab k O P. specialize (Q lab k O). apply Rltb_true in P. rewrite P in Q. destruct Q as (en & E & _). exists en. exact E.
Qed.
Lemma direct_ok (e : el) (f : string -> R) : good_shells e -> disjoint_labels e (cascadeKeys e) -> energies_for e (rho e f) ->
  exists out, directLines e true (map (fun k => (k, f k)) (cascadeKeys e)) = Ok out.
Proof.
  intros G D H. unfold directLines. apply allShells_ok.
  - exact G.
  - rewrite (good_names e G). apply incl_refl.
  - apply good_NoDup, G.
  - exact D.
  - reflexivity.
  - intros k Hk lab r Hr P. assert (Hl : In lab (map fst (fluo_table e k))) by (apply in_map_iff; exists (lab, r); split; [reflexivity|exact Hr]).
    destruct (own e lab) as [k'|] eqn:O; [|exfalso; exact (own_None _ _ _ O Hk Hl)].
    destruct (own_Some _ _ _ O) as [Hk' Hl']. assert (k' = k) by exact (D k' k lab Hk' Hk Hl' Hl). subst k'.
    apply (H lab k O). unfold rho. rewrite O. destruct (fluo_sorted e k G Hk) as (S1 & _). rewrite (value_of_In lab r _ S1 Hr). exact P.
Qed.

(** adding the lines of one cache entry *)
Lemma mkl_rate en r : val0 (N:=RNum) (mkl en r) "rate" = r.
Proof. reflexivity. Qed.
Lemma mkl_set en r r' : mset sltb "rate" r' (mkl en r) = mkl en r'.
Proof. reflexivity. Qed.
Lemma addLine_matches (e : el) (A : string -> R) (out : linesR) lab (q v : R) : matches e A out -> (forall l, 0 <= A l) -> 0 < q -> 0 < v ->
  exists out' : linesR, addLine v out (lab, mkl (en_of e lab) q) = Ok out' /\ matches e (fun l => A l + (if String.eqb l lab then v * q else 0)) out'.
Proof.
  intros [S F] HA Hq Hv. assert (P : 0 < v * q) by (apply Rmult_lt_0_compat; assumption).
  unfold addLine. cbn [fst snd]. change (@mfind string (list (string * @num RNum)) sltb lab out) with (@mfind string tab sltb lab out). rewrite F.
  assert (Q : forall t : tab, (mset sltb lab t out = mset sltb lab t out) /\ forall l, l <> lab -> mfind sltb l (mset sltb lab t out) = if Rltb 0 (A l + 0) then Some (mkl (en_of e l) (A l + 0)) else None).
  { intros t. split; [reflexivity|]. intros l Hl. rewrite sfind_other by auto. rewrite F. rewrite Rplus_0_r. reflexivity. }
  destruct (Rltb_spec 0 (A lab)) as [L|L].
  - cbn [of_opt rbind]. eexists. split; [reflexivity|]. split; [apply smset_sorted, S|].
    intros l. destruct (String.eqb_spec l lab) as [->|Hl].
    + rewrite (@mfind_mset_same string tab sltb sltb_total). assert (0 < A lab + v * q) by lra. apply Rltb_true in H. rewrite H.
      rewrite mkl_rate. change (nadd (A lab) (nmul q v)) with (A lab + q * v). rewrite mkl_set. rewrite (Rmult_comm q v). reflexivity.
    + apply (proj2 (Q _)), Hl.
  - assert (A lab = 0) by (specialize (HA lab); lra). eexists. split; [reflexivity|]. split; [apply smset_sorted, S|].
    intros l. destruct (String.eqb_spec l lab) as [->|Hl].
    + rewrite (@mfind_mset_same string tab sltb sltb_total). assert (0 < A lab + v * q) by lra. apply Rltb_true in H0. rewrite H0.
      rewrite mkl_rate. change (nmul q v) with (q * v). rewrite mkl_set. rewrite H, Rplus_0_l, (Rmult_comm q v). reflexivity.
    + apply (proj2 (Q _)), Hl.
Qed.
Definition memb (l : string) (L : linesR) : bool := existsb (String.eqb l) (map fst L).
Lemma addLines_matches (e : el) (q : string -> R) (v : R) : 0 < v -> forall L A (out : linesR), NoDup (map fst L) ->
  Forall (fun kv => snd kv = mkl (en_of e (fst kv)) (q (fst kv)) /\ 0 < q (fst kv)) L -> matches e A out -> (forall l, 0 <= A l) ->
  exists out' : linesR, rfold (addLine v) L out = Ok out' /\ matches e (fun l => A l + (if memb l L then v * q l else 0)) out'.
Proof.
  intros Hv. induction L as [|[lab t] L IH]; intros A out Hn HF HM HA.
  - exists out. split; [reflexivity|]. destruct HM as [S F]. split; [exact S|]. intros l. cbn. rewrite Rplus_0_r. apply F.
  - inversion Hn as [|? ? Hl Hn']; subst. inversion HF as [|? ? [E Hq] HF']; subst. cbn [fst snd] in E, Hq. subst t.
    destruct (addLine_matches e A out lab (q lab) v HM HA Hq Hv) as (o1 & E1 & M1).
    destruct (IH _ o1 Hn' HF' M1) as (o2 & E2 & M2).
    { intros l. specialize (HA l). destruct (String.eqb l lab); [|lra]. assert (0 < v * q lab) by (apply Rmult_lt_0_compat; assumption). lra. }
    exists o2. split.
    + cbn [rfold].
      match goal with |- rbind ?X _ = _ => change X with (addLine v out (lab, mkl (en_of e lab) (q lab))) end. rewrite E1. exact E2.
    + destruct M2 as [S F]. split; [exact S|]. intros l. rewrite F.
      assert (Q : A l + (if String.eqb l lab then v * q lab else 0) + (if memb l L then v * q l else 0) =
                  A l + (if memb l ((lab, mkl (en_of e lab) (q lab)) :: L) then v * q l else 0)).
      { unfold memb. cbn [map fst existsb]. destruct (String.eqb_spec l lab) as [->|Hl']; cbn [orb]; [|lra].
        destruct (existsb (String.eqb lab) (map fst L)) eqn:X; [|lra]. apply existsb_exists in X as (x & Hx & E'). apply String.eqb_eq in E'. subst x. contradiction. }
      rewrite Q. reflexivity.
Qed.
Lemma entry_lines (e : el) (B : string -> R) (L : linesR) : matches e B L -> (forall l, 0 <= B l) ->
  NoDup (map fst L) /\ Forall (fun kv => snd kv = mkl (en_of e (fst kv)) (B (fst kv)) /\ 0 < B (fst kv)) L /\
  forall l, (if memb l L then B l else 0) = B l.
Proof.
  intros [S F] HB. split; [exact (smsorted_NoDup S)|]. split.
  - apply Forall_forall. intros [l t] H. cbn. apply (@mfind_In string tab sltb sltb_total) in H; [|exact S]. rewrite F in H.
    destruct (Rltb 0 (B l)) eqn:P; [|discriminate]. apply Rltb_true in P. split; [|exact P]. apply some_inj in H. symmetry. exact H.
  - intros l. unfold memb. destruct (existsb (String.eqb l) (map fst L)) eqn:X; [reflexivity|].
    specialize (F l). specialize (HB l). destruct (Rltb 0 (B l)) eqn:P; [|apply Rltb_false in P; lra].
    apply (@mfind_In string tab sltb sltb_total) in F; [|exact S]. apply (in_map fst) in F. cbn in F.
    assert (existsb (String.eqb l) (map fst L) = true) by (apply existsb_exists; exists l; split; [exact F|apply String.eqb_refl]). congruence.
Qed.

(** the whole cached sum *)
Definition unit_of (s : string) : tab := [(s, 1)].
Definition entry_ok (e : el) (s : string) : Prop :=
  exists L : linesR, mfind sltb s (el_cascCache e) = Some L /\ matches e (rho e (out e (unit_of s))) L /\ (forall l, 0 <= rho e (out e (unit_of s)) l).
Definition contrib (e : el) (l : string) (kv : string * R) : R :=
  if String.eqb (fst kv) "all other" then 0 else snd kv * rho e (out e (unit_of (fst kv))) l.
Lemma cached_matches (e : el) : forall (d : tab) (A : string -> R) (out0 : linesR), nonneg_dist d ->
  (forall s v, In (s, v) d -> s <> "all other" -> entry_ok e s) -> matches e A out0 -> (forall l, 0 <= A l) ->
  exists out' : linesR, rfold (fun out (kv : string * @num RNum) =>
    if ((snd kv <=? n0)%num || String.eqb (fst kv) "all other")%bool then Ok out
    else match mfind sltb (fst kv) (el_cascCache e) with
         | None => Throw RuntimeError
         | Some c => rfold (addLine (snd kv)) c out
         end) d out0 = Ok out' /\ matches e (fun l => A l + Rsum (map (contrib e l) d)) out'.
Proof.
  induction d as [|[s v] d IH]; intros A out0 Hd He HM HA.
  - exists out0. split; [reflexivity|]. destruct HM as [S F]. split; [exact S|]. intros l. cbn. rewrite Rplus_0_r. apply F.
  - inversion Hd as [|? ? Hv Hd']; subst. cbn [snd] in Hv.
    assert (He' : forall s v, In (s, v) d -> s <> "all other" -> entry_ok e s) by (intros s' v' H; apply (He s' v'); right; exact H).
    cbn [rfold fst snd]. change (nleb v n0) with (Rleb v 0).
    assert (SK : forall o1, matches e A o1 -> contrib e = contrib e -> (forall l, contrib e l (s, v) = 0) ->
       exists out' : linesR, rbind (Ok o1) (rfold (fun out (kv : string * @num RNum) =>
    if ((snd kv <=? n0)%num || String.eqb (fst kv) "all other")%bool then Ok out
    else match mfind sltb (fst kv) (el_cascCache e) with
         | None => Throw RuntimeError
         | Some c => rfold (addLine (snd kv)) c out
         end) d) = Ok out' /\ matches e (fun l => A l + Rsum (map (contrib e l) ((s, v) :: d))) out').
    { intros o1 M1 _ Z. cbn [rbind]. destruct (IH A o1 Hd' He' M1 HA) as (o2 & E2 & M2). exists o2. split; [exact E2|].
      destruct M2 as [S2 F2]. split; [exact S2|]. intros l. rewrite F2. cbn [map Rsum]. rewrite Z, Rplus_0_l. reflexivity. }
    destruct (Rleb v 0 || String.eqb s "all other")%bool eqn:C.
    + apply SK; [exact HM|reflexivity|]. intros l. unfold contrib. cbn [fst snd]. destruct (String.eqb s "all other") eqn:X; [reflexivity|].
      rewrite orb_false_r in C. destruct (Rleb_spec v 0); [|discriminate]. assert (v = 0) by lra. rewrite H. lra.
    + apply orb_false_iff in C as [C1 C2]. destruct (Rleb_spec v 0) as [|L0]; [discriminate|].
      destruct (He s v (or_introl eq_refl)) as (L & EL & ML & NN); [intros ->; discriminate|].
      rewrite EL. destruct (entry_lines e _ L ML NN) as (N1 & N2 & N3).
      assert (Pv : 0 < v) by lra.
      destruct (addLines_matches e (rho e (out e (unit_of s))) v Pv L A out0 N1 N2 HM HA) as (o1 & E1 & M1).
      match goal with |- exists out', rbind ?X _ = _ /\ _ => change X with (rfold (addLine v) L out0) end. rewrite E1. cbn [rbind].
      assert (Q : forall l, (if memb l L then v * rho e (out e (unit_of s)) l else 0) = v * rho e (out e (unit_of s)) l).
      { intros l. specialize (N3 l). destruct (memb l L); [reflexivity|]. rewrite <- N3. lra. }
      destruct (IH _ o1 Hd' He' M1) as (o2 & E2 & M2).
      { intros l. rewrite Q. specialize (HA l). specialize (NN l). assert (0 <= v * rho e (out e (unit_of s)) l) by (apply Rmult_le_pos; lra). lra. }
      exists o2. split; [exact E2|]. destruct M2 as [S2 F2]. split; [exact S2|]. intros l. rewrite F2, Q. cbn [map Rsum].
      assert (K : contrib e l (s, v) = v * rho e (out e (unit_of s)) l) by (unfold contrib; cbn [fst snd]; rewrite C2; reflexivity).
      rewrite K. rewrite !Rplus_assoc. reflexivity.
Qed.

(** linearity over the entries of the distribution *)
Lemma value_cons y s v (d : tab) : msorted sltb ((s, v) :: d) -> value_or_0 y ((s, v) :: d) = v * (if String.eqb y s then 1 else 0) + value_or_0 y d.
Proof.
  intros Hs. assert (Hs' := Hs). unfold msorted in Hs'. cbn in Hs'. inversion Hs' as [|? ? H1 H2]; subst.
  destruct (String.eqb_spec y s) as [->|Hn].
  - rewrite (value_of_In s v _ Hs (or_introl eq_refl)). assert (value_or_0 s d = 0).
    { unfold value_or_0. destruct (mfind sltb s d) eqn:E; [|reflexivity]. apply smfind_In in E; [|exact H1]. apply (in_map fst) in E. cbn in E.
      rewrite Forall_forall in H2. specialize (H2 _ E). unfold klt in H2. rewrite (@st_irrefl string sltb sltb_total) in H2. discriminate. }
    lra.
  - unfold value_or_0. cbn [mfind]. destruct (sltb s y) eqn:E1; [destruct (mfind sltb y d); lra|].
    destruct (sltb y s) eqn:E2; [|exfalso; apply Hn; apply (@st_total string sltb sltb_total); assumption].
    destruct (mfind sltb y d) eqn:E; [|lra]. apply smfind_In in E; [|exact H1]. apply (in_map fst) in E. cbn in E.
    rewrite Forall_forall in H2. specialize (H2 _ E). unfold klt in H2. assert (sltb s s = true) by (eapply (@st_trans string sltb sltb_total); eassumption).
    rewrite (@st_irrefl string sltb sltb_total) in H. discriminate.
Qed.
Lemma value_unit y s : value_or_0 y (unit_of s) = if String.eqb y s then 1 else 0.
Proof.
  unfold unit_of. rewrite value_cons; [unfold value_or_0; cbn; lra|]. unfold msorted. cbn. repeat constructor.
Qed.
Lemma value_sum y (d : tab) : msorted sltb d -> value_or_0 y d = Rsum (map (fun sv => snd sv * value_or_0 y (unit_of (fst sv))) d).
Proof.
  induction d as [|[s v] d IH]; intros Hs; [reflexivity|]. rewrite value_cons by exact Hs. cbn [map Rsum fst snd]. rewrite value_unit.
  unfold msorted in Hs. cbn in Hs. inversion Hs; subst. rewrite IH by assumption. reflexivity.
Qed.
Lemma out_sum (e : el) (d : tab) k : msorted sltb d -> out e d k = Rsum (map (fun sv => snd sv * out e (unit_of (fst sv)) k) d).
Proof.
  intros Hs. unfold out. rewrite <- (cval_sum (transfer e) (cascadeKeys e) d snd (fun sv x => value_or_0 x (unit_of (fst sv)))).
  apply cval_ext. intros y _. apply value_sum, Hs.
Qed.
Lemma rho_sum (e : el) (d : tab) l : msorted sltb d -> ~ In "all other" (cascadeKeys e) -> rho e (out e d) l = Rsum (map (contrib e l) d).
Proof.
  intros Hs Hn. unfold rho at 1. destruct (own e l) as [k|] eqn:O.
  - rewrite (out_sum e d k Hs). set (a := value_or_0 l (fluo_table e k)). set (b := yield e k).
    replace (a * Rsum (map (fun sv => snd sv * out e (unit_of (fst sv)) k) d) * b) with
            ((a * b) * Rsum (map (fun sv => snd sv * out e (unit_of (fst sv)) k) d)) by ring.
    rewrite <- Rsum_mult_l. apply Rsum_ext. intros [s v] _. unfold contrib. cbn [fst snd].
    destruct (String.eqb_spec s "all other") as [->|].
    + assert (out e (unit_of "all other") k = 0); [|rewrite H; ring].
      unfold out. rewrite (cval_ext _ _ _ (fun _ => 0)); [apply cval_zero|]. intros y Hy. rewrite value_unit.
      destruct (String.eqb_spec y "all other") as [->|]; [contradiction|reflexivity].
    + unfold rho. rewrite O. fold a b. ring.
  - symmetry. apply Rsum_zero. intros [s v] _. unfold contrib. cbn [fst snd]. destruct (String.eqb s "all other"); [reflexivity|].
    unfold rho. rewrite O. ring.
Qed.
Lemma out_nonneg (e : el) (d : tab) k : good_shells e -> nonneg_dist d -> In k (cascadeKeys e) -> 0 <= out e d k.
Proof.
  intros G H Hk. eapply Rle_trans; [apply (dist_nonneg k d H)|]. unfold out.
  apply (cval_ge (transfer e) (cascadeKeys e)) with (f := fun x => value_or_0 x d); [|intros y _; apply dist_nonneg, H|exact Hk].
  intros pre a post b E Hb. destruct (good_rates e G pre a post E) as (sh & _ & X). apply (X b Hb).
Qed.
Lemma unit_nonneg s : nonneg_dist (unit_of s).
Proof. constructor; [cbn; lra|constructor]. Qed.
Lemma all_other_not_shell (e : el) : good_shells e -> ~ In "all other" (cascadeKeys e).
Proof.
  intros G. unfold cascadeKeys. intros C. assert (In "all other" shell_names).
  { rewrite <- (firstn_skipn (length (el_shells e)) shell_names). apply in_app_iff. left. exact C. }
  cbn in H. decompose [or] H; try discriminate. contradiction.
Qed.

(** filling *)
Lemma names_unique a b lab : In a shell_names -> In b shell_names -> begins_with a lab -> begins_with b lab -> a = b.
Proof.
  intros Ha Hb [r ->] [r' E]. cbn in Ha, Hb.
  decompose [or] Ha; subst; try contradiction; decompose [or] Hb; subst; try contradiction; try reflexivity; cbn in E; discriminate.
Qed.
Lemma keys_names (e : el) k : In k (cascadeKeys e) -> In k shell_names.
Proof. intros H. rewrite <- (firstn_skipn (length (el_shells e)) shell_names). apply in_app_iff. left. exact H. Qed.
Lemma own_labels_disjoint (e : el) : good_shells e -> own_labels e -> disjoint_labels e (cascadeKeys e).
Proof.
  intros G O k k' lab Hk Hk' Hl Hl'.
  assert (Q : forall k, In k (cascadeKeys e) -> In lab (map fst (fluo_table e k)) -> begins_with k lab).
  { clear - O G. intros k Hk Hl. unfold fluo_table in Hl. destruct (mfind sltb k (el_shells e)) as [sh|] eqn:E; [|destruct Hl].
    apply smfind_In in E; [|apply good_sorted, G]. unfold own_labels in O. rewrite Forall_forall in O. specialize (O _ E). cbn in O.
    apply in_map_iff in Hl as ([l r] & El & Hl). cbn in El. subst l. rewrite Forall_forall in O. exact (O _ Hl). }
  eapply names_unique; [apply (keys_names e), Hk|apply (keys_names e), Hk'|apply Q; assumption|apply Q; assumption].
Qed.
Definition unit_lines (e : el) (s : string) : res linesR := rbind (cascadeList e (unit_of s)) (directLines e true).
Lemma fillCasc_ok lf (e : el) subs : forall c c', fillCascLoop lf e subs c = (c', Ok tt) ->
  (forall s, In s subs -> exists L, unit_lines e s = Ok L /\ mfind sltb s c' = Some L) /\
  (forall s, ~ In s subs -> mfind sltb s c' = mfind sltb s c).
Proof.
  induction subs as [|s subs IH]; intros c c' H; cbn [fillCascLoop] in H.
  - injection H as <-. split; [intros ? []|reflexivity].
  - change (getXRayLinesFromVacancyDistribution (with_casc e false c) [(s, n1)] 1 1) with (unit_lines e s) in H.
    destruct (unit_lines e s) as [L| | |] eqn:U; try discriminate. apply IH in H as [H1 H2].
    split.
    + intros q [->|Hq]; [|apply H1, Hq]. destruct (in_dec string_dec q subs) as [Hi|Hi]; [apply H1, Hi|].
      exists L. split; [exact U|]. rewrite H2 by exact Hi. apply (@mfind_mset_same string linesR sltb sltb_total).
    + intros q Hq. rewrite H2 by (intros C; apply Hq; right; exact C). apply sfind_other. intros ->. apply Hq. left. reflexivity.
Qed.

Theorem cascade_cache (lf : bool) (e e' : el) (d : tab) : good_shells e -> own_labels e -> el_cascCache e = [] ->
  setCascadeCacheEnabled lf e 1 = (e', Ok tt) ->
  msorted sltb d -> nonneg_dist d -> (forall s, In s (map fst d) -> In s (map fst (el_shells e)) \/ s = "all other") ->
  exists l, getXRayLinesFromVacancyDistribution e' d 1 1 = Ok l /\
            getXRayLinesFromVacancyDistribution (fst (setCascadeCacheEnabled lf e' 0)) d 1 1 = Ok l.
Proof.
  intros G O C H Hs Hd Hk. unfold setCascadeCacheEnabled in H. cbn [Z.eqb] in H. rewrite C in H. cbn [length Nat.ltb Nat.leb] in H.
  unfold fillCascadeCache in H. destruct (fillCascLoop lf e (map fst (el_shells e)) []) as [c r] eqn:F.
  destruct r as [[]| | |]; try discriminate. cbn [with_casc el_cascCache] in H. injection H as <-.
  apply fillCasc_ok in F as [F1 F2].
  pose proof (own_labels_disjoint e G O) as D.
  assert (EN : forall s, In s (map fst (el_shells e)) -> exists L, mfind sltb s c = Some L /\ matches e (rho e (out e (unit_of s))) L /\
     (forall l, 0 <= rho e (out e (unit_of s)) l) /\ energies_for e (rho e (out e (unit_of s)))).
  { intros s Hin. destruct (F1 s Hin) as (L & U & Fd). exists L. split; [exact Fd|]. unfold unit_lines in U.
    rewrite (cascadeList_eq e (unit_of s) G (unit_nonneg s)) in U. cbn [rbind] in U. apply direct_matches in U as [M1 M2]; [|exact G|exact D].
    split; [exact M1|]. split; [|exact M2]. intros l. apply rho_nonneg; [exact G|]. intros k Hkk. apply out_nonneg; [exact G|apply unit_nonneg|exact Hkk]. }
  set (e2 := with_casc (with_casc e (el_cascFlag e) c) true c).
  assert (DIR : exists l, rbind (cascadeList e d) (directLines e true) = Ok l /\ matches e (rho e (out e d)) l).
  { rewrite (cascadeList_eq e d G Hd). cbn [rbind]. destruct (direct_ok e (out e d) G D) as [l El].
    - intros lab k Ow P. rewrite (rho_sum e d lab Hs (all_other_not_shell e G)) in P.
      assert (X : exists sv, In sv d /\ 0 < contrib e lab sv).
      { clear - P. induction d as [|sv d IH]; [cbn in P; lra|]. cbn [map Rsum] in P. destruct (Rlt_dec 0 (contrib e lab sv)) as [L|L].
        - exists sv. split; [left; reflexivity|exact L].
        - destruct IH as (sv' & I & Q); [lra|]. exists sv'. split; [right; exact I|exact Q]. }
      destruct X as ([s v] & Hin & Q). unfold contrib in Q. cbn [fst snd] in Q. destruct (String.eqb_spec s "all other"); [lra|].
      assert (Hin' : In s (map fst (el_shells e))).
      { destruct (Hk s); [apply (in_map fst) in Hin; exact Hin|assumption|contradiction]. }
      destruct (EN s Hin') as (L & _ & _ & N1 & N2). apply (N2 lab k Ow).
      assert (0 <= v) by (unfold nonneg_dist in Hd; rewrite Forall_forall in Hd; apply (Hd _ Hin)).
      specialize (N1 lab). destruct (Rle_lt_or_eq_dec _ _ N1) as [|Z]; [assumption|]. rewrite <- Z in Q. lra.
    - exists l. split; [exact El|]. apply direct_matches in El as [M _]; assumption. }
  destruct DIR as (l & El & Ml). exists l. split; [|exact El].
  change (getXRayLinesFromVacancyDistribution e2 d 1 1 = Ok l). unfold getXRayLinesFromVacancyDistribution. cbn [Z.eqb negb].
  change (el_cascFlag e2) with true. change (el_cascCache e2) with c. cbn [andb].
  destruct (Nat.ltb_spec 0 (length c)) as [L0|L0]; [|exact El].
  unfold cachedLines. destruct (cached_matches e2 d (fun _ => 0) [] Hd) as (o2 & E2 & M2).
  - intros s v Hin Hna. destruct (Hk s) as [Hin'|]; [apply (in_map fst) in Hin; exact Hin| |contradiction].
    destruct (EN s Hin') as (L & A1 & A2 & A3 & _). exists L. split; [exact A1|]. split; [exact A2|exact A3].
  - split; [apply smsorted_nil|]. intros lab. destruct (Rltb_spec 0 0); [lra|reflexivity].
  - intros _. lra.
  - refine (eq_trans E2 _). apply (f_equal (@Ok linesR)). eapply (matches_unique e); [|exact M2|exact Ml]. intros lab. cbn beta.
    rewrite (rho_sum e d lab Hs (all_other_not_shell e G)). apply Rplus_0_l.
Qed.
