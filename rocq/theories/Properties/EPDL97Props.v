(** C43, C44: EPDL97. *)
From Coq Require Import Ascii String List ZArith Reals Bool Arith Lia Lra.
From Verif Require Import Base.Num Base.Res Base.SMap Base.Str Base.Text Base.ListLemmas Base.RSum Model.Specfile Model.EPDL97 Spec.EPDL97Spec
  Proofs.MathProofs Proofs.EPDL97Proofs Proofs.EPDL97Proofs2 Proofs.EPDL97Proofs3 Proofs.EPDL97Proofs4 Proofs.EPDL97Proofs5.
Import ListNotations.
Set Implicit Arguments.
Local Open Scope R_scope.
Local Existing Instance RNum.
Local Open Scope string_scope.

(** Inside the grid the indices are two consecutive points around the energy, whatever index was
    remembered from previous calls; no call reads outside the grid or fails to end. *)
Theorem C43_indices_bracket (g : list R) (x : R) (last : nat) : nondecreasing g -> (2 <= length g)%nat ->
  pt g 0 <= x < pt g (length g - 1) ->
  exists i last', getInterpolationIndices last g x = Ok (i, S i, last') /\ (S i < length g)%nat /\ pt g i <= x <= pt g (S i).
Proof.
  intros S N [H0 H1]. destruct (@indices_spec g x last S N) as (i & j & l & E & _ & Hj & A & _). destruct (A H0 H1) as [-> B].
  exists i, l. auto.
Qed.
Print Assumptions C43_indices_bracket.
(** Below the first point: the first two points, or the first one twice when it is the remembered
    one. Above the last point: the last two points, or the last one twice when the remembered index
    is not below it. *)
Theorem C43_indices_outside (g : list R) (x : R) (last : nat) : nondecreasing g -> (2 <= length g)%nat ->
  (x < pt g 0 -> exists last', getInterpolationIndices last g x = Ok (0%nat, (if Nat.eqb last 0 then 0 else 1)%nat, last')) /\
  (pt g (length g - 1) < x -> exists last', getInterpolationIndices last g x =
     Ok ((if Nat.ltb last (length g - 1) then length g - 2 else length g - 1)%nat, (length g - 1)%nat, last')).
Proof.
  intros S N. destruct (@indices_spec g x last S N) as (i & j & l & E & _ & _ & _ & B & _ & C). split; intros H.
  - destruct (B H) as [-> ->]. exists l. exact E.
  - destruct (C H) as [-> ->]. exists l. exact E.
Qed.
Print Assumptions C43_indices_outside.
(** The index left for the next call is one of the grid's. *)
Theorem C43_remembered_index (g : list R) (x : R) (last : nat) : nondecreasing g -> (2 <= length g)%nat ->
  exists p last', getInterpolationIndices last g x = Ok (p, last') /\ (last' < length g)%nat.
Proof. intros S N. destruct (@indices_spec g x last S N) as (i & j & l & E & H & _). exists (i, j), l. auto. Qed.
Print Assumptions C43_remembered_index.

(** Between two different consecutive points the coefficients do not depend on the remembered index:
    nothing is assumed of the rows, the columns or the binding energies. *)
Theorem C43_history_between_points (ep : epdl) (z : Z) (g : list R) rows b (x : R) (k last last' : nat) :
  data_of ep z g rows b -> nondecreasing g -> (S k < length g)%nat -> pt g k < x < pt g (S k) ->
  snd (getMassAttenuationCoefficients last ep z x) = snd (getMassAttenuationCoefficients last' ep z x).
Proof.
  intros D S K X. assert (N : (2 <= length g)%nat) by lia.
  assert (X0 : pt g 0 <= x) by (assert (pt g 0 <= pt g k) by (apply S; lia); lra).
  assert (X1 : x < pt g (length g - 1)) by (assert (pt g (Datatypes.S k) <= pt g (length g - 1)) by (apply S; lia); lra).
  assert (U : forall l, snd (getMassAttenuationCoefficients l ep z x) = answer ep g rows b x k (Datatypes.S k)).
  { intros l. destruct (@C43_indices_bracket g x l S N (conj X0 X1)) as (i & l' & E & Hi & B).
    rewrite (@query_answer ep z g rows b l x i (Datatypes.S i) l' D E). cbn [snd]. rewrite (@bracket_unique g x k i); auto. }
  rewrite !U. reflexivity.
Qed.
Print Assumptions C43_history_between_points.
(** At a point of the table that is not repeated they do not either, if the coefficients that have
    become positive stay so around it. *)
Theorem C43_history_at_points (ep : epdl) (z : Z) (g : list R) rows b (k last last' : nat) :
  data_of ep z g rows b -> nondecreasing g -> table_ok (ep_index ep) g rows -> isolated g k -> regular (ep_index ep) g rows k ->
  snd (getMassAttenuationCoefficients last ep z (pt g k)) = snd (getMassAttenuationCoefficients last' ep z (pt g k)).
Proof.
  intros D S T I Rg. rewrite !(@query_point (ep_index ep) g rows b k T I Rg ep z _ S D eq_refl). reflexivity.
Qed.
Print Assumptions C43_history_at_points.

(** ... and the coefficients returned there are those of the table: scattering, and the shells whose
    binding energy has been reached. *)
Theorem C43_table_points (ep : epdl) (z : Z) (g : list R) rows b (k last : nat) (t : list (string * R)) (key : string) (idx : Z) :
  data_of ep z g rows b -> nondecreasing g -> table_ok (ep_index ep) g rows -> isolated g k -> regular (ep_index ep) g rows k ->
  msorted sltb (ep_index ep) -> In (key, idx) (ep_index ep) -> 0 < entry rows k idx ->
  snd (getMassAttenuationCoefficients last ep z (pt g k)) = Ok t ->
  (In key ["coherent"; "compton"; "all other"] -> mfind sltb key t = Some (entry rows k idx)) /\
  (In key ["K"; "L1"; "L2"; "L3"; "M1"; "M2"; "M3"; "M4"; "M5"] ->
   exists e, mfind sltb key b = Some e /\ mfind sltb key t = Some (if Rle_dec e (pt g k) then if Rlt_dec 0 e then entry rows k idx else 0 else 0)).
Proof.
  intros D S T I Rg IS K P E. rewrite (@query_point (ep_index ep) g rows b k T I Rg ep z _ S D eq_refl) in E.
  unfold answerT in E. destruct (rfold (stepT g rows b k) (ep_index ep) (mset sltb "energy" (pt g k) [])) as [s| | |] eqn:F; try discriminate.
  cbn [rbind] in E. injection E as <-.
  set (Q := fun (key : string) (idx : Z) (v : R) => In key ["coherent"; "compton"; "all other"] /\ v = (if Rltb 0 (entry rows k idx) then entry rows k idx else 0) \/
     In key ["K"; "L1"; "L2"; "L3"; "M1"; "M2"; "M3"; "M4"; "M5"] /\ (exists e, mfind sltb key b = Some e /\ (0 < entry rows k idx -> v = if Rle_dec e (pt g k) then if Rlt_dec 0 e then entry rows k idx else 0 else 0)) \/
     ~ In key (shells ++ ["coherent"; "compton"])).
  destruct (fun A => @fold_value (stepT g rows b k) Q (ep_index ep) A (smsorted_NoDup IS) _ s (smset_sorted _ _ (@smsorted_nil R)) F) as (A & B & _).
  { intros s1 key1 idx1 s2 K1 S1 E1. split; [eapply stepT_sorted; eauto|].
    assert (J : In key1 ["coherent"; "compton"; "all other"] \/ In key1 ["K"; "L1"; "L2"; "L3"; "M1"; "M2"; "M3"; "M4"; "M5"] \/ ~ In key1 (shells ++ ["coherent"; "compton"])).
    { destruct (in_dec string_dec key1 ["coherent"; "compton"; "all other"]); [auto|]. destruct (in_dec string_dec key1 ["K"; "L1"; "L2"; "L3"; "M1"; "M2"; "M3"; "M4"; "M5"]); [auto|].
      right; right. cbn in *. tauto. }
    unfold stepT in E1. toR.
    assert (M : forall v, (forall q, q <> key1 -> value (mset sltb key1 v s1) q = value s1 q) /\ value (mset sltb key1 v s1) key1 = v).
    { intros v. split; [intros q Hq; rewrite value_mset by exact S1; destruct (String.eqb_spec key1 q); congruence|rewrite value_mset by exact S1; rewrite String.eqb_refl; reflexivity]. }
    assert (M2 : forall v, mset sltb key1 v (mset sltb key1 0 s1) = mset sltb key1 v s1) by (intros v; apply mset_twice, S1).
    destruct (derived key1) eqn:D1.
    { injection E1 as <-. split; [auto|]. destruct J as [J|[J|J]]; [exfalso|exfalso|right; right; exact J];
      cbn in J; repeat (destruct J as [<-|J]; [discriminate|]); destruct J. }
    destruct (unshelled key1) eqn:U1.
    { injection E1 as <-. destruct (M (if Rltb 0 (entry rows k idx1) then entry rows k idx1 else 0)) as [M3 M4]. split; [exact M3|]. left. rewrite M4.
      split; [|reflexivity]. unfold unshelled in U1. apply orb_prop in U1. destruct U1 as [U1|U1]; [apply orb_prop in U1; destruct U1 as [U1|U1]|]; apply String.eqb_eq in U1; subst; cbn; auto. }
    destruct (Nat.ltb (String.length key1) 3) eqn:L1.
    2: { injection E1 as <-. split; [auto|]. destruct J as [J|[J|J]]; [exfalso|exfalso|right; right; exact J];
      cbn in J; repeat (destruct J as [<-|J]; [discriminate|]); destruct J. }
    destruct (mfind sltb key1 b) as [e|] eqn:B1; [|discriminate].
    assert (V : forall v, (0 < entry rows k idx1 -> v = if Rle_dec e (pt g k) then if Rlt_dec 0 e then entry rows k idx1 else 0 else 0) ->
       (forall q, q <> key1 -> value (mset sltb key1 v s1) q = value s1 q) /\ Q key1 idx1 (value (mset sltb key1 v s1) key1)).
    { intros v Hv. destruct (M v) as [M3 M4]. split; [exact M3|]. rewrite M4. unfold Q. destruct J as [J|[J|J]]; [exfalso| |right; right; exact J].
      - cbn in J; repeat (destruct J as [<-|J]; [discriminate U1|]); destruct J.
      - right; left. split; [exact J|]. exists e. auto. }
    destruct (Rleb_spec e (pt g k)) as [C1|C1]; destruct (Rltb_spec 0 e) as [C2|C2]; cbn [andb] in E1;
      try (injection E1 as <-; apply V; intros _; destruct (Rle_dec e (pt g k)); destruct (Rlt_dec 0 e); lra).
    destruct (Rltb_spec 0 (entry rows k idx1)) as [C3|C3].
    - injection E1 as <-. rewrite M2. apply V. intros _. destruct (Rle_dec e (pt g k)); destruct (Rlt_dec 0 e); try lra.
    - destruct (extrapolate g rows idx1 k (pt g k)) as [v| | |]; try discriminate. cbn [rbind] in E1. injection E1 as <-. rewrite M2. apply V. intros; lra. }
  specialize (B key idx K). destruct (finish_spec A) as (_ & FV & _ & _ & _ & FS). unfold Q in B. destruct (Rltb_spec 0 (entry rows k idx)); [|lra].
  split; intros H.
  - assert (N : In key (shells ++ ["coherent"; "compton"; "pair"; "photoelectric"; "total"]) /\ ~ In key final_keys).
    { clear - H. cbn in H. repeat (destruct H as [<-|H]; [split; [cbn; auto 20|cbn; intuition discriminate]|]). destruct H. }
    toR. rewrite FS by apply N. rewrite FV by apply N. f_equal. destruct B as [[_ B]|[[B _]|B]]; [exact B|exfalso|exfalso].
    + clear - H B. cbn in H. repeat (destruct H as [<-|H]; [cbn in B; intuition discriminate|]). destruct H.
    + apply B. clear - H. cbn in H |- *. tauto.
  - assert (N : In key (shells ++ ["coherent"; "compton"; "pair"; "photoelectric"; "total"]) /\ ~ In key final_keys).
    { clear - H. cbn in H. repeat (destruct H as [<-|H]; [split; [cbn; auto 20|cbn; intuition discriminate]|]). destruct H. }
    destruct B as [[B _]|[[_ (e & B1 & B2)]|B]]; [exfalso| |exfalso].
    + clear - H B. cbn in H. repeat (destruct H as [<-|H]; [cbn in B; intuition discriminate|]). destruct H.
    + exists e. split; [exact B1|]. toR. rewrite FS by apply N. rewrite FV by apply N. rewrite B2 by assumption. reflexivity.
    + apply B. clear - H. cbn in H |- *. tauto.
Qed.
Print Assumptions C43_table_points.

(** Every energy gets an answer, whatever the remembered index, if every row has all the columns,
    every shell has a binding energy and the coefficients of the shells that can be excited are
    positive at the end of the table. *)
Theorem C43_query_answers (ep : epdl) (z : Z) (g : list R) rows b (x : R) (last : nat) :
  data_of ep z g rows b -> nondecreasing g -> (2 <= length g)%nat -> table_ok (ep_index ep) g rows -> complete (ep_index ep) g rows b ->
  exists t, snd (getMassAttenuationCoefficients last ep z x) = Ok t.
Proof.
  intros D S N T C. destruct (@indices_spec g x last S N) as (i & j & l & E & _ & Hj & A1 & A2 & A3 & A4).
  rewrite (@query_answer ep z g rows b last x i j l D E). cbn [snd]. apply (@answer_total (ep_index ep) g rows b T C); auto.
  destruct (Rlt_dec x (pt g 0)) as [X|X]. { destruct (A2 X) as [-> ->]. destruct (Nat.eqb last 0); lia. }
  destruct (Rlt_dec x (pt g (length g - 1))) as [Y|Y]. { destruct A1 as [-> _]; [lra|exact Y|lia]. }
  destruct A3 as [[-> _]|[-> ->]]; [lra|lia|lia].
Qed.
Print Assumptions C43_query_answers.

(** *** Examples: an element with the usual columns, of which coherent and K are not zero *)
Definition ex_row (coherent k : R) : list R := [0; 0; coherent; 0; 0; k; 0; 0; 0; 0; 0; 0; 0; 0; 0].
Definition ex_index : list (string * Z) := mset_all sltb (combine interestingLabels (map Z.of_nat (seq 0 15))) [].
Definition ex_binding (k : R) : list (string * R) :=
  mset_all sltb (map (fun s => (s, if String.eqb s "K" then k else 0)) ["K"; "L1"; "L2"; "L3"; "M1"; "M2"; "M3"; "M4"; "M5"]) [].
Definition ex_ep (g : list R) (rows : list (list R)) (k : R) : @epdl RNum := mkEpdl true [ex_binding k] interestingLabels ex_index [rows] [g].
Lemma ex_data g rows k : data_of (ex_ep g rows k) 1 g rows (ex_binding k).
Proof. repeat split; reflexivity. Qed.
Lemma ex_sorted : msorted sltb ex_index.
Proof. apply smset_all_sorted, smsorted_nil. Qed.
Lemma ex_table g rows : length rows = length g -> (forall r, In r rows -> exists a c, r = ex_row a c) -> table_ok ex_index g rows.
Proof.
  intros L H. split; [exact L|]. intros key idx K. vm_compute in K.
  assert (0 <= idx <= 14)%Z by (repeat (destruct K as [K|K]; [injection K as <- <-; lia|]); destruct K).
  split; [lia|]. intros r Hr. destruct (H r Hr) as (a & c & ->). cbn [ex_row length]. lia.
Qed.
Lemma ex_complete g rows k : (2 <= length g)%nat -> (0 < k -> 0 < entry rows (length g - 2) 5 /\ 0 < entry rows (length g - 1) 5) -> complete ex_index g rows (ex_binding k).
Proof.
  intros N H key idx K L. vm_compute in K.
  repeat (destruct K as [K|K]; [injection K as <- <-; cbn [String.length] in L; try (exfalso; lia); first [exists k; split; [reflexivity|exact H] | exists 0; split; [reflexivity|intros Q; exfalso; lra]]|]). destruct K.
Qed.
Lemma ex_coherent g rows k x i j i1 i2 x0 x1 t : length rows = length g -> (forall r, In r rows -> exists a c, r = ex_row a c) ->
  answer (ex_ep g rows k) g rows (ex_binding k) x i j = Ok t -> @usedPair RNum g x i j = Ok (i1, i2, x0, x1) -> (i1 < length g)%nat -> (i2 < length g)%nat ->
  mfind sltb "coherent" t = Some (
    if (Nat.eqb i1 i2 || Rltb (x1 - x0) (Rlit 5 (-10)))%bool then entry rows i2 2
    else if (Rltb 0 (entry rows i1 2) && Rltb 0 (entry rows i2 2))%bool then exp (@weightA RNum x0 x1 x * ln (entry rows i1 2) + @weightB RNum x0 x1 x * ln (entry rows i2 2))
    else if (Rltb 0 (entry rows i2 2) && Rltb (Rlit 1 (-5)) (x - x0))%bool then exp (@weightB RNum x0 x1 x * ln (entry rows i2 2)) else 0).
Proof.
  intros L H E U H1 H2. pose proof (@ex_table g rows L H) as T.
  assert (K : In ("coherent", 2%Z) ex_index) by (vm_compute; auto 20).
  destruct (@answer_value (ex_ep g rows k) g rows (ex_binding k) x i j i1 i2 x0 x1 t "coherent" 2 ex_sorted K E U) as (s & s' & Ss & -> & W); [cbn; auto 20|].
  pose proof (@cell_ok ex_index g rows i1 2 "coherent" T K H1) as C1. pose proof (@cell_ok ex_index g rows i2 2 "coherent" T K H2) as C2.
  f_equal. destruct (_ || _)%bool.
  - unfold caseA in W. cbn [derived unshelled String.eqb Ascii.eqb Bool.eqb orb] in W. rewrite C2 in W. cbn [rbind] in W. injection W as <-.
    rewrite value_mset by exact Ss. reflexivity.
  - unfold caseB in W. cbn [derived unshelled String.eqb Ascii.eqb Bool.eqb orb] in W. rewrite C1, C2 in W. cbn [rbind] in W. injection W as <-.
    rewrite value_mset by exact Ss. reflexivity.
Qed.

(** Below the first energy of a table and above its last one the answer depends on what was asked
    before: with energies 1, 2 and coherent coefficients 1, 2, at 1/2 it is 1 or 1/2, at 4 it is 4 or 2. *)
Definition ex2 : @epdl RNum := ex_ep [1; 2] [ex_row 1 0; ex_row 2 0] 0.
Lemma ex2_rows : forall r, In r [ex_row 1 0; ex_row 2 0] -> exists a c, r = ex_row a c.
Proof. intros r [<-|[<-|[]]]; eauto. Qed.
Lemma ex2_nondecreasing : nondecreasing [1; 2].
Proof. intros i j H. cbn [length] in H. destruct i as [|[|i]]; destruct j as [|[|j]]; try lia; cbn; lra. Qed.
Lemma ex2_answer last x i j l i1 i2 x0 x1 : @getInterpolationIndices RNum last [1; 2] x = Ok (i, j, l) -> @usedPair RNum [1; 2] x i j = Ok (i1, i2, x0, x1) ->
  (i1 < 2)%nat -> (i2 < 2)%nat -> (i <= j < 2)%nat ->
  exists t, snd (getMassAttenuationCoefficients last ex2 1 x) = Ok t /\ mfind sltb "coherent" t = Some (
    if (Nat.eqb i1 i2 || Rltb (x1 - x0) (Rlit 5 (-10)))%bool then entry [ex_row 1 0; ex_row 2 0] i2 2
    else if (Rltb 0 (entry [ex_row 1 0; ex_row 2 0] i1 2) && Rltb 0 (entry [ex_row 1 0; ex_row 2 0] i2 2))%bool
         then exp (@weightA RNum x0 x1 x * ln (entry [ex_row 1 0; ex_row 2 0] i1 2) + @weightB RNum x0 x1 x * ln (entry [ex_row 1 0; ex_row 2 0] i2 2))
    else if (Rltb 0 (entry [ex_row 1 0; ex_row 2 0] i2 2) && Rltb (Rlit 1 (-5)) (x - x0))%bool then exp (@weightB RNum x0 x1 x * ln (entry [ex_row 1 0; ex_row 2 0] i2 2)) else 0).
Proof.
  intros E U H1 H2 H3. rewrite (@query_answer ex2 1 _ _ _ last x i j l (ex_data [1; 2] [ex_row 1 0; ex_row 2 0] 0) E). cbn [snd].
  assert (T : table_ok ex_index [1; 2] [ex_row 1 0; ex_row 2 0]) by (apply ex_table; [reflexivity|exact ex2_rows]).
  assert (C : complete ex_index [1; 2] [ex_row 1 0; ex_row 2 0] (ex_binding 0)) by (apply ex_complete; [cbn; lia|intros; exfalso; lra]).
  destruct (@answer_total ex_index [1; 2] _ _ T C ex2 x i j eq_refl) as [t Et]; [cbn; lia|exact H3|].
  exists t. split; [exact Et|]. eapply ex_coherent; eauto; [reflexivity|exact ex2_rows].
Qed.
Lemma ln_pow (a : R) (n : nat) : 0 < a -> ln (a ^ n) = INR n * ln a.
Proof. intros H. induction n as [|n IH]; [cbn; rewrite ln_1; ring|]. rewrite S_INR. cbn [pow]. rewrite ln_mult; [rewrite IH; ring|exact H|apply pow_lt, H]. Qed.
Lemma ln2_pos : 0 < ln 2. Proof. rewrite <- ln_1. apply ln_increasing; lra. Qed.
Theorem C43_history_outside_refuted :
  exists (ep : @epdl RNum) (z : Z) (g : list R) rows b,
    data_of ep z g rows b /\ nondecreasing g /\ table_ok (ep_index ep) g rows /\ complete (ep_index ep) g rows b /\ g = [1; 2] /\
    (exists t t', snd (getMassAttenuationCoefficients 0 ep z (/ 2)) = Ok t /\ snd (getMassAttenuationCoefficients 1 ep z (/ 2)) = Ok t' /\
       mfind sltb "coherent" t = Some 1 /\ mfind sltb "coherent" t' = Some (/ 2)) /\
    (exists t t', snd (getMassAttenuationCoefficients 0 ep z 4) = Ok t /\ snd (getMassAttenuationCoefficients 1 ep z 4) = Ok t' /\
       mfind sltb "coherent" t = Some 4 /\ mfind sltb "coherent" t' = Some 2).
Proof.
  exists ex2, 1%Z, [1; 2], [ex_row 1 0; ex_row 2 0], (ex_binding 0).
  split; [apply ex_data|]. split; [exact ex2_nondecreasing|]. split; [apply ex_table; [reflexivity|exact ex2_rows]|].
  split; [apply ex_complete; [cbn; lia|intros; exfalso; lra]|]. split; [reflexivity|].
  pose proof (fun x l => proj1 (@C43_indices_outside [1; 2] x l ex2_nondecreasing (le_n 2))) as LO.
  pose proof (fun x l => proj2 (@C43_indices_outside [1; 2] x l ex2_nondecreasing (le_n 2))) as HI. cbn [length Nat.sub] in HI.
  assert (U : forall x i j, (i <= j < 2)%nat -> x <> 1 -> x <> 2 -> @usedPair RNum [1; 2] x i j = Ok (i, j, pt [1; 2] i, pt [1; 2] j)).
  { intros x i j H N1 N2. unfold usedPair. toR. rewrite (@vget_nth R [1; 2] i 0) by (cbn; lia). rewrite (@vget_nth R [1; 2] j 0) by (cbn; lia). cbn [rbind neqb RNum].
    fold (pt [1; 2] j). destruct (Reqb_spec x (pt [1; 2] j)) as [Q|Q]; [|reflexivity]. exfalso. destruct j as [|[|j]]; cbn in Q; lra || lia. }
  pose proof ln2_pos as L2. assert (L4 : ln 4 = 2 * ln 2) by (replace 4 with (2 ^ 2) by ring; rewrite ln_pow by lra; cbn [INR]; ring).
  assert (Lh : ln (/ 2) = - ln 2) by (apply ln_Rinv; lra).
  assert (G : Rltb (pt [1; 2] 1 - pt [1; 2] 0) (Rlit 5 (-10)) = false) by (rewrite lit5_10; apply Rltb_false; cbn; lra).
  assert (P1 : Rltb 0 1 = true) by (apply Rltb_true; lra). assert (P2 : Rltb 0 2 = true) by (apply Rltb_true; lra).
  split.
  - destruct (LO (/ 2) 0%nat) as [l E]; [cbn; lra|]. destruct (LO (/ 2) 1%nat) as [l' E']; [cbn; lra|]. cbn [Nat.eqb] in E, E'.
    destruct (@ex2_answer 0 (/ 2) 0 0 l 0 0 _ _ E (U (/ 2) 0%nat 0%nat ltac:(lia) ltac:(lra) ltac:(lra))) as (t & T1 & T2); try lia.
    destruct (@ex2_answer 1 (/ 2) 0 1 l' 0 1 _ _ E' (U (/ 2) 0%nat 1%nat ltac:(lia) ltac:(lra) ltac:(lra))) as (t' & T1' & T2'); try lia.
    exists t, t'. split; [exact T1|]. split; [exact T1'|]. split; [exact T2|]. toR. rewrite T2'. rewrite G. cbn [Nat.eqb orb]. change (entry [ex_row 1 0; ex_row 2 0] 0 2) with 1. change (entry [ex_row 1 0; ex_row 2 0] 1 2) with 2.
    rewrite P1, P2. cbn [andb]. f_equal. unfold weightA, weightB. cbn [n1 ndiv nmul nlog RNum pt nth]. rewrite ln_1.
    replace (2 / 1) with 2 by lra. replace (/ 2 / 1) with (/ 2) by lra. rewrite Lh.
    transitivity (exp (- ln 2)); [f_equal; field; lra|]. rewrite exp_Ropp, exp_ln; lra.
  - destruct (HI 4 0%nat) as [l E]; [cbn; lra|]. destruct (HI 4 1%nat) as [l' E']; [cbn; lra|]. cbn [Nat.ltb Nat.leb] in E, E'.
    destruct (@ex2_answer 0 4 0 1 l 0 1 _ _ E (U 4 0%nat 1%nat ltac:(lia) ltac:(lra) ltac:(lra))) as (t & T1 & T2); try lia.
    destruct (@ex2_answer 1 4 1 1 l' 1 1 _ _ E' (U 4 1%nat 1%nat ltac:(lia) ltac:(lra) ltac:(lra))) as (t' & T1' & T2'); try lia.
    exists t, t'. split; [exact T1|]. split; [exact T1'|]. split; [|exact T2']. toR. rewrite T2. rewrite G. cbn [Nat.eqb orb]. change (entry [ex_row 1 0; ex_row 2 0] 0 2) with 1. change (entry [ex_row 1 0; ex_row 2 0] 1 2) with 2.
    rewrite P1, P2. cbn [andb]. f_equal. unfold weightA, weightB. cbn [n1 ndiv nmul nlog RNum pt nth]. rewrite ln_1.
    replace (2 / 1) with 2 by lra. replace (4 / 1) with 4 by lra. replace (2 / 4) with (/ 2) by lra. rewrite Lh, L4.
    transitivity (exp (ln 4)); [f_equal; rewrite L4; field; lra|]. rewrite exp_ln; lra.
Qed.
Print Assumptions C43_history_outside_refuted.
(** the other theorems apply to such a table: energy 3/2 is between two points; 2 is the last point *)
Example C43_between_met : data_of ex2 1 [1; 2] [ex_row 1 0; ex_row 2 0] (ex_binding 0) /\ pt [1; 2] 0 < 3 / 2 < pt [1; 2] 1.
Proof. split; [apply ex_data|cbn; lra]. Qed.
Lemma nth_repeat_in (y : R) n i d : (i < n)%nat -> nth i (repeat y n) d = y.
Proof. revert i. induction n as [|n IH]; intros [|i] H; cbn; try lia; [reflexivity|apply IH; lia]. Qed.
Example C43_points_met : let rows := map (fun y => repeat y 15) [1; 2; 3] in
  isolated [1; 2; 3] 1 /\ isolated [1; 2; 3] 2 /\ regular ex_index [1; 2; 3] rows 1 /\ regular ex_index [1; 2; 3] rows 2 /\ table_ok ex_index [1; 2; 3] rows.
Proof.
  cbv zeta. split; [unfold isolated; cbn; repeat split; try lia; intros; lra|]. split; [unfold isolated; cbn; repeat split; try lia; intros; lra|].
  assert (E : forall key idx, In (key, idx) ex_index -> (0 <= idx <= 14)%Z) by (intros key idx K; vm_compute in K; repeat (destruct K as [K|K]; [injection K as <- <-; lia|]); destruct K).
  assert (V : forall key idx i, In (key, idx) ex_index -> (i < 3)%nat -> 0 < entry (map (fun y => repeat y 15) [1; 2; 3]) i idx).
  { intros key idx i K I. specialize (E _ _ K). unfold entry. destruct i as [|[|[|i]]]; [| | |lia]; cbn [map nth]; rewrite nth_repeat_in by lia; lra. }
  split; [intros key idx K; cbn [length Nat.ltb Nat.leb]; split; intros _; eapply V; eauto|].
  split; [intros key idx K; cbn [length Nat.ltb Nat.leb Nat.add]; split; [intros _|]; eapply V; eauto|].
  split; [reflexivity|]. intros key idx K. specialize (E _ _ K). split; [lia|]. intros r Hr. cbn [map] in Hr.
  destruct Hr as [<-|[<-|[<-|[]]]]; rewrite repeat_length; lia.
Qed.

(** *** C44 *)
(** In every answer the photoelectric coefficient is the sum of those of the ten shells, and the
    total is photoelectric + coherent + compton + pair. *)
Theorem C44_sums (strtod : text -> R) (history : list ep_op) (z : Z) (x : R) (last last' : nat) (t : list (string * R)) :
  getMassAttenuationCoefficients last (ep_run strtod history) z x = (last', Ok t) ->
  (forall k, In k shells -> exists v, mfind sltb k t = Some v /\ 0 <= v) /\
  mfind sltb "photoelectric" t = Some (Rsum (map (value t) shells)) /\
  mfind sltb "total" t = Some (value t "photoelectric" + value t "coherent" + value t "compton" + value t "pair").
Proof.
  intros E. destruct (@coefficients_spec _ last z x last' t (Inv_run strtod history) E) as (s & Ss & -> & P).
  destruct (finish_spec Ss) as (A & FV & FP & FPh & FT & FS). toR. split; [|split].
  - intros k K. exists (value (finish s) k). split; [apply FS, in_or_app; left; exact K|]. rewrite FV; [apply P, K|].
    clear - K. cbn in K. repeat (destruct K as [<-|K]; [cbn; intuition discriminate|]). destruct K.
  - rewrite FS by (apply in_or_app; right; cbn; auto 20). rewrite FPh at 1. reflexivity.
  - rewrite FS by (apply in_or_app; right; cbn; auto 20). rewrite FT at 1. reflexivity.
Qed.
Print Assumptions C44_sums.

Lemma weights_ok (ep : epdl) last z x last' w : Inv ep -> getPhotoelectricWeights last ep z x = (last', Ok w) ->
  exists t, getMassAttenuationCoefficients last ep z x = (last', Ok t) /\
  (forall k v, mfind sltb k t = Some v -> mfind sltb ("mu " ++ k) w = Some v) /\
  (/ 10000000000 < value t "photoelectric" -> forall k, In k shells -> mfind sltb k w = Some (value t k / value t "photoelectric")) /\
  (value t "photoelectric" <= / 10000000000 -> forall k, In k shells -> mfind sltb k w = Some 0).
Proof.
  intros I E. unfold getPhotoelectricWeights in E. destruct (getMassAttenuationCoefficients last ep z x) as [l r] eqn:Q.
  destruct r as [t| | |]; try discriminate. injection E as <- <-. exists t. split; [reflexivity|].
  destruct (@coefficients_spec ep last z x l t I Q) as (s & Ss & Es & _). destruct (finish_spec Ss) as (St & _). rewrite <- Es in St.
  pose proof (smsorted_NoDup St) as ND. destruct (@mu_entries t [] (@smsorted_nil R) ND) as (M1 & M2 & _). toR.
  set (r0 := mset_all sltb (map (fun kv => ("mu " ++ fst kv, snd kv)) t) []) in *.
  destruct (@set_shells (fun k => value t k / value t "photoelectric") shells shells_NoDup r0 M1) as (A1 & A2 & A3).
  destruct (@set_shells (fun k => 0) shells shells_NoDup r0 M1) as (B1 & B2 & B3).
  cbn [nleb nlit n0 ndiv RNum]. change (@at0 RNum) with value. rewrite lit1_10. change shellKeys with shells.
  destruct (Rleb_spec (value t "photoelectric") (/ 10000000000)) as [L|L].
  - split; [|split; [intros H; lra|intros _; exact B2]]. intros k v K. rewrite B3; [|intros C; apply (@shell_not_mu _ k C); reflexivity].
    apply M2. apply (smfind_In k v St), K.
  - split; [|split; [intros _; exact A2|intros H; lra]]. intros k v K. rewrite A3; [|intros C; apply (@shell_not_mu _ k C); reflexivity].
    apply M2. apply (smfind_In k v St), K.
Qed.

(** The photoelectric weights of an answer, after any history of loading calls: not negative, adding
    up to 1 when the photoelectric coefficient is above 1e-10, all zero otherwise; and the answer also
    carries all the coefficients, under names starting with "mu ". *)
Theorem C44_weights (strtod : text -> R) (history : list ep_op) (z : Z) (x : R) (last last' : nat) (w : list (string * R)) :
  getPhotoelectricWeights last (ep_run strtod history) z x = (last', Ok w) ->
  (forall k, In k shells -> exists v, mfind sltb k w = Some v /\ 0 <= v) /\
  (/ 10000000000 < value w "mu photoelectric" -> Rsum (map (value w) shells) = 1 /\
     forall k, In k shells -> value w k * value w "mu photoelectric" = value w ("mu " ++ k)) /\
  (value w "mu photoelectric" <= / 10000000000 -> forall k, In k shells -> value w k = 0).
Proof.
  intros E. destruct (@weights_ok _ last z x last' w (Inv_run strtod history) E) as (t & Q & M & W1 & W2).
  destruct (@C44_sums strtod history z x last last' t Q) as (SH & PH & _). toR.
  assert (MP : value w "mu photoelectric" = value t "photoelectric").
  { unfold value at 1 2. change "mu photoelectric" with ("mu " ++ "photoelectric"). rewrite (M _ _ PH), PH. reflexivity. }
  assert (PV : value t "photoelectric" = Rsum (map (value t) shells)) by (unfold value at 1; rewrite PH; reflexivity).
  rewrite MP. split; [|split].
  - intros k K. destruct (SH k K) as (v & V1 & V2). destruct (Rlt_dec (/ 10000000000) (value t "photoelectric")) as [C|C].
    + exists (value t k / value t "photoelectric"). split; [apply W1; assumption|]. unfold value at 1. rewrite V1. unfold Rdiv. apply Rmult_le_pos; [lra|]. left. apply Rinv_0_lt_compat. lra.
    + exists 0. split; [apply W2; [lra|exact K]|lra].
  - intros C. split.
    + rewrite (@Rsum_ext string (value w) (fun k => value t k / value t "photoelectric")).
      * rewrite <- (map_map (value t) (fun v => v / value t "photoelectric")), Rsum_div, <- PV. apply Rinv_r. lra.
      * intros k K. unfold value at 1. rewrite (W1 C k K). reflexivity.
    + intros k K. destruct (SH k K) as (v & V1 & V2). assert (E1 : value w ("mu " ++ k) = v) by (unfold value; rewrite (M _ _ V1); reflexivity).
      assert (E2 : value w k = value t k / value t "photoelectric") by (unfold value at 1; rewrite (W1 C k K); reflexivity).
      assert (E3 : value t k = v) by (unfold value; rewrite V1; reflexivity). rewrite E1, E2, E3. field. lra.
  - intros C k K. unfold value. rewrite (W2 C k K). reflexivity.
Qed.
Print Assumptions C44_weights.
