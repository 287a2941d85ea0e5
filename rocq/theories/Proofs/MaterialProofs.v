From Coq Require Import String List Bool Arith Reals Lra Lia Sorted Permutation.
From Verif Require Import Base.Num Base.Res Base.RSum Base.SMap Base.ListLemmas Model.Material Spec.MaterialSpec.
Import ListNotations.

Section Gen.
Context {N : Num}.

Lemma combine_fst_snd {A B} (l : list (A * B)) : combine (map fst l) (map snd l) = l.
Proof. induction l as [|[a b] l IH]; cbn; f_equal; auto. Qed.

Definition accepted_amounts (l : list num) : Prop := Forall (fun a => nleb a n0 = false) l.

Lemma is_map_msorted {V} (m : list (string * V)) : is_map m <-> msorted sltb m.
Proof. unfold is_map, msorted, mkeys, klt, sltb. tauto. Qed.

Lemma msorted_map_vals {V W} (f : string * V -> W) m : msorted sltb m -> msorted sltb (map (fun kv => (fst kv, f kv)) m).
Proof. unfold msorted, mkeys. rewrite map_map. cbn. auto. Qed.

(** exact effect of the map overload, for any arithmetic *)
Lemma setComposition_map_exact m comp : is_map comp ->
  setComposition_map m comp =
  if existsb (fun kv => nleb (snd kv) n0) comp then (m, Throw InvalidArgument)
  else (mkMaterial (m_name m) (m_initialized m)
          (map (fun kv => (fst kv, ndiv (snd kv) (nsum (map snd comp)))) comp)
          (m_density m) (m_thickness m) (m_comment m), Ok tt).
Proof.
  intros Hm. unfold setComposition_map, setComposition_vec. rewrite !map_length, Nat.eqb_refl. cbn [negb].
  assert (E : existsb (fun a => nleb a n0) (map snd comp) = existsb (fun kv => nleb (snd kv) n0) comp).
  { clear. induction comp as [|x l IH]; cbn; [reflexivity|rewrite IH; reflexivity]. }
  rewrite E. destruct (existsb _ comp); [reflexivity|]. rewrite combine_fst_snd.
  rewrite mset_all_id; [reflexivity|]. apply is_map_msorted in Hm. apply (msorted_map_vals (fun kv => ndiv (snd kv) _)), Hm.
Qed.

Lemma step_throw_unchanged (m m' : material) o e : mat_step m o = (m', Throw e) -> m' = m.
Proof.
  destruct o; cbn; unfold setName, setComposition_map, setComposition_vec, initialize;
  repeat match goal with |- context [if ?b then _ else _] => destruct b end; congruence.
Qed.

Lemma step_no_ub (m : material) o : (snd (mat_step m o) = Ok tt) \/ snd (mat_step m o) = Throw InvalidArgument.
Proof.
  destruct o; cbn; unfold setName, setComposition_map, setComposition_vec, initialize;
  repeat match goal with |- context [if ?b then _ else _] => destruct b end; cbn; auto.
Qed.

Lemma step_keeps_initialized (m : material) o : m_initialized m = true -> m_initialized (fst (mat_step m o)) = true.
Proof.
  intros H. destruct o; cbn; unfold setName, setComposition_map, setComposition_vec, initialize;
  repeat match goal with |- context [if ?b then _ else _] => destruct b eqn:? end; cbn; auto; congruence.
Qed.

Lemma run_keeps_initialized l (m : material) : m_initialized m = true -> m_initialized (mat_run m l) = true.
Proof.
  unfold mat_run. revert m. induction l as [|o l IH]; cbn; intros m H; [assumption|].
  apply IH, step_keeps_initialized, H.
Qed.

Lemma setName_initialized (m : material) n : m_initialized m = true -> setName m n = (m, Throw InvalidArgument).
Proof. intros H. unfold setName. rewrite H. reflexivity. Qed.

Lemma initialize_sets (m m' : material) n d t c : initialize m n d t c = (m', Ok tt) -> m_initialized m' = true.
Proof.
  unfold initialize. repeat match goal with |- context [if ?b then _ else _] => destruct b end; try congruence.
  intros E; inversion E; reflexivity.
Qed.
End Gen.

Section AtR.
Local Existing Instance RNum.

Lemma string_length_lt1 s : Nat.ltb (String.length s) 1 = true <-> s = EmptyString.
Proof. destruct s; cbn; split; congruence. Qed.

Lemma initialize_iff (m : @material RNum) n d t c :
  initialize m n d t c =
  if (if string_dec n EmptyString then true else false) then (m, Throw InvalidArgument)
  else if Rle_dec d 0 then (m, Throw InvalidArgument)
  else if Rle_dec t 0 then (m, Throw InvalidArgument)
  else (mkMaterial n true (m_composition m) d t c, Ok tt).
Proof.
  unfold initialize. destruct (string_dec n EmptyString) as [->|Hn]; [reflexivity|].
  destruct (Nat.ltb (String.length n) 1) eqn:E; [apply string_length_lt1 in E; contradiction|].
  cbn. unfold Rleb. destruct (Rle_dec d 0), (Rle_dec t 0); reflexivity.
Qed.

Lemma amounts_pos (l : list R) : existsb (fun a => @nleb RNum a n0) l = false <-> Forall (fun a => 0 < a)%R l.
Proof.
  rewrite existsb_false_Forall. split; apply Forall_impl; intros a; cbn; rewrite Rleb_false; lra.
Qed.

Lemma valid_step m o : valid_material m -> valid_material (fst (mat_step m o)).
Proof.
  intros (H1 & H2 & H3 & H4 & H5).
  assert (Hvec : forall names amounts, valid_material (fst (setComposition_vec m names amounts))).
  { intros names amounts. unfold setComposition_vec. destruct (negb _); [repeat split; assumption|].
    destruct (existsb _ amounts) eqn:E; [repeat split; assumption|]. cbn [fst].
    apply amounts_pos in E.
    assert (Hs : msorted sltb (mset_all sltb (map (fun na => (fst na, ndiv (snd na) (nsum amounts))) (combine names amounts)) []))
      by apply smset_all_sorted, smsorted_nil.
    repeat split; try assumption.
    cbn [getComposition m_composition]. apply Forall_forall. intros [k v] Hin.
      apply smfind_In in Hin; [|assumption].
      rewrite smfind_mset_all in Hin by apply smsorted_nil. cbn in Hin.
      assert (P : forall l w, Forall (fun kv : string * R => (0 < snd kv)%R) l -> alast (ltb:=sltb) k l = Some w -> (0 < w)%R).
      { clear. induction l as [|[q x] l IH]; cbn; [discriminate|]. intros w Hf. inversion Hf; subst.
        destruct (alast k l) eqn:E; [intros E'; inversion E'; subst; auto|].
        destruct (st_eq_dec q k); [|discriminate]. intros E'; inversion E'; subst; assumption. }
      destruct (alast k _) eqn:E2; [|discriminate]. inversion Hin; subst. eapply P; [|exact E2].
      apply Forall_map. cbn. apply Forall_forall. intros [a b] Hab. cbn.
      assert (Hb : In b amounts) by (eapply in_combine_r; exact Hab).
      assert (Hbp : (0 < b)%R) by (rewrite Forall_forall in E; auto).
      rewrite nsum_R. apply Rdiv_lt_0_compat; [assumption|]. apply Rsum_pos; [intros ->; destruct Hb|assumption]. }
  destruct o; cbn [mat_step].
  - rewrite initialize_iff. destruct (string_dec name EmptyString); [repeat split; assumption|].
    destruct (Rle_dec density 0); [repeat split; assumption|]. destruct (Rle_dec thickness 0); [repeat split; assumption|].
    cbn. repeat split; cbn; try assumption; lra.
  - unfold setName. destruct (m_initialized m); [repeat split; assumption|].
    rewrite initialize_iff. destruct (string_dec name EmptyString); [repeat split; assumption|].
    destruct (Rle_dec (m_density m) 0); [repeat split; assumption|]. destruct (Rle_dec (m_thickness m) 0); [repeat split; assumption|].
    cbn. repeat split; cbn; try assumption.
  - apply Hvec.
  - apply Hvec.
Qed.

Lemma valid_run l m : valid_material m -> valid_material (mat_run m l).
Proof. unfold mat_run. revert m. induction l as [|o l IH]; cbn; intros m H; [assumption|]. apply IH, valid_step, H. Qed.

Lemma valid_default : valid_material material_default.
Proof. repeat split; cbn; try lra; try discriminate; constructor. Qed.

Lemma valid_new n d t c m : material_new n d t c = Ok m -> valid_material m.
Proof.
  unfold material_new. rewrite initialize_iff. destruct (string_dec n EmptyString); [discriminate|].
  destruct (Rle_dec d 0); [discriminate|]. destruct (Rle_dec t 0); [discriminate|].
  intros E; inversion E; subst. repeat split; cbn; try assumption; try lra; constructor.
Qed.

Lemma material_valid_everywhere start l :
  start = material_default \/ (exists n d t c, material_new n d t c = Ok start) ->
  valid_material (mat_run start l).
Proof.
  intros [->|(n & d & t & c & H)]; apply valid_run; [apply valid_default|eapply valid_new, H].
Qed.

Lemma setComposition_map_R (m : @material RNum) comp : is_map comp -> comp <> [] ->
  Forall (fun kv => 0 < snd kv)%R comp ->
  exists m', setComposition_map m comp = (m', Ok tt) /\
    getComposition m' = map (fun kv => (fst kv, snd kv / Rsum (map snd comp)))%R comp /\
    Rsum (map snd (getComposition m')) = 1%R /\
    Forall (fun kv => 0 < snd kv <= 1)%R (getComposition m').
Proof.
  intros Hm Hne Hp. rewrite setComposition_map_exact by assumption.
  assert (Hpos : Forall (fun a => 0 < a)%R (map snd comp)) by (apply Forall_map; exact Hp).
  assert (E : existsb (fun kv => @nleb RNum (snd kv) n0) comp = false).
  { apply existsb_false_Forall. eapply Forall_impl; [|exact Hp]. cbn. intros kv H. apply Rleb_false. lra. }
  rewrite E. eexists; split; [reflexivity|]. cbn [getComposition m_composition]. rewrite nsum_R.
  assert (HT : (0 < Rsum (map snd comp))%R) by (apply Rsum_pos; [destruct comp; [congruence|discriminate]|assumption]).
  split; [reflexivity|]. split.
  - rewrite map_map. cbn. transitivity (Rsum (map (fun a => a / Rsum (map snd comp))%R (map snd comp))).
    + rewrite map_map. reflexivity.
    + rewrite Rsum_div. field. lra.
  - apply Forall_map. cbn. apply Forall_forall. intros [k v] Hin. cbn.
    assert (0 < v)%R by (rewrite Forall_forall in Hp; apply (Hp (k, v) Hin)).
    assert (v <= Rsum (map snd comp))%R.
    { apply Rsum_in_le; [eapply Forall_impl; [|exact Hpos]; cbn; intros; lra|]. apply (in_map snd) in Hin; exact Hin. }
    split; [apply Rdiv_lt_0_compat; assumption|]. apply Rmult_le_reg_r with (Rsum (map snd comp)); [assumption|].
    unfold Rdiv. rewrite Rmult_assoc, Rinv_l by lra. lra.
Qed.

Lemma setComposition_map_reject (m : @material RNum) comp : is_map comp ->
  Exists (fun kv => snd kv <= 0)%R comp ->
  setComposition_map m comp = (m, Throw InvalidArgument).
Proof.
  intros Hm He. rewrite setComposition_map_exact by assumption.
  assert (E : existsb (fun kv => @nleb RNum (snd kv) n0) comp = true).
  { apply existsb_exists. apply Exists_exists in He. destruct He as [x [H1 H2]]. exists x; split; [assumption|].
    cbn. apply Rleb_true. exact H2. }
  rewrite E. reflexivity.
Qed.

(** vector overload with distinct names *)
Lemma setComposition_vec_perm (m : @material RNum) names amounts comp :
  length names = length amounts -> is_map comp -> Permutation comp (combine names amounts) ->
  setComposition_vec m names amounts = setComposition_map m comp.
Proof.
  intros Hl Hm Hp. unfold setComposition_map, setComposition_vec.
  rewrite !map_length, Hl, !Nat.eqb_refl. cbn [negb]. rewrite combine_fst_snd.
  assert (Hpa : Permutation (map snd comp) amounts).
  { rewrite Hp. rewrite map_combine_snd by assumption. reflexivity. }
  assert (E : existsb (fun a => @nleb RNum a n0) (map snd comp) = existsb (fun a => @nleb RNum a n0) amounts).
  { destruct (existsb (fun a => @nleb RNum a n0) amounts) eqn:E1.
    - apply existsb_exists in E1. destruct E1 as [x [H1 H2]]. apply existsb_exists. exists x; split; [|assumption].
      eapply Permutation_in; [symmetry; exact Hpa|exact H1].
    - apply existsb_false_Forall in E1. apply existsb_false_Forall. eapply Permutation_Forall; [symmetry; exact Hpa|exact E1]. }
  rewrite E. destruct (existsb _ amounts); [reflexivity|].
  rewrite !nsum_R. rewrite (Rsum_perm Hpa).
  apply is_map_msorted in Hm.
  set (g := fun na : string * @num RNum => (fst na, @ndiv RNum (snd na) (Rsum amounts))).
  assert (Hnd : NoDup (map fst (map g comp))).
  { rewrite map_map. cbn. apply (smsorted_NoDup Hm). }
  enough (EQ : mset_all sltb (map g (combine names amounts)) [] = mset_all sltb (map g comp) []) by (rewrite EQ; reflexivity).
  apply smsorted_ext; [apply smset_all_sorted, smsorted_nil..|].
  assert (Hpp : Permutation (mset_all sltb (map g (combine names amounts)) []) (mset_all sltb (map g comp) [])).
  { rewrite !smset_all_Permutation; try apply smsorted_nil; rewrite ?app_nil_r.
    - apply Permutation_map. symmetry; exact Hp.
    - exact Hnd.
    - unfold mkeys. eapply Permutation_NoDup; [|exact Hnd]. apply Permutation_map, Permutation_map. exact Hp. }
  intros k.
  assert (S1 : msorted sltb (mset_all sltb (map g (combine names amounts)) [])) by apply smset_all_sorted, smsorted_nil.
  assert (S2 : msorted sltb (mset_all sltb (map g comp) [])) by apply smset_all_sorted, smsorted_nil.
  destruct (mfind sltb k (mset_all sltb (map g (combine names amounts)) [])) eqn:E1; symmetry.
  - apply smfind_In; [exact S2|]. apply smfind_In in E1; [|exact S1]. eapply Permutation_in; [exact Hpp|exact E1].
  - apply smfind_None; [exact S2|]. apply smfind_None in E1; [|exact S1]. intros Hin; apply E1.
    unfold mkeys in *. eapply Permutation_in; [|exact Hin]. apply Permutation_map. symmetry. exact Hpp.
Qed.

(** repeated names *)
Lemma sum_mset k v (m : list (string * R)) : msorted sltb m ->
  Rsum (map snd (mset sltb k v m)) =
  (Rsum (map snd m) + v - match mfind sltb k m with Some w => w | None => 0 end)%R.
Proof.
  induction m as [|[q w] m IH]; cbn [mset mfind map snd Rsum]; intros Hs; [lra|].
  apply msorted_cons_inv in Hs. destruct Hs as [Hs Hf]. specialize (IH Hs).
  destruct (sltb q k); cbn [map snd Rsum]; [rewrite IH; destruct (mfind sltb k m); lra|].
  destruct (sltb k q); cbn [map snd Rsum]; lra.
Qed.

Lemma sum_mset_all l : forall m, msorted sltb m -> Forall (fun kv => 0 < snd kv)%R l -> Forall (fun kv => 0 < snd kv)%R m ->
  (Rsum (map snd (mset_all sltb l m)) <= Rsum (map snd m) + Rsum (map snd l))%R /\
  (Rsum (map snd (mset_all sltb l m)) = (Rsum (map snd m) + Rsum (map snd l))%R <->
   NoDup (map fst l) /\ (forall k, In k (map fst l) -> ~ In k (map fst m))).
Proof.
  induction l as [|[k v] l IH]; intros m Hs Hl Hm; cbn [map fst snd Rsum].
  - cbn. split; [lra|]. split; [split; [constructor|tauto]|lra].
  - inversion Hl; subst. cbn in H1.
    change (mset_all sltb ((k, v) :: l) m) with (mset_all sltb l (mset sltb k v m)).
    assert (Hs' : msorted sltb (mset sltb k v m)) by (apply smset_sorted, Hs).
    assert (Hm' : Forall (fun kv => 0 < snd kv)%R (mset sltb k v m)).
    { apply Forall_forall. intros x Hx. apply smset_In in Hx; [|assumption]. rewrite Forall_forall in Hm.
      destruct Hx as [->|[_ Hx]]; [assumption|auto]. }
    destruct (IH (mset sltb k v m) Hs' H2 Hm') as [IH1 IH2].
    rewrite (sum_mset k v m Hs) in IH1, IH2.
    destruct (mfind sltb k m) as [w|] eqn:E.
    + assert (Hw : (0 < w)%R). { apply smfind_In in E; [|assumption]. rewrite Forall_forall in Hm. apply (Hm _ E). }
      split; [lra|]. split; [lra|]. intros [_ H]. exfalso. apply (H k); [left; reflexivity|].
      apply smfind_In in E; [|assumption]. apply (in_map fst) in E. exact E.
    + apply smfind_None in E; [|assumption]. split; [lra|].
      replace (Rsum (map snd m) + (v + Rsum (map snd l)))%R with (Rsum (map snd m) + v - 0 + Rsum (map snd l))%R by lra.
      rewrite IH2. split.
      * intros [Hn Hd]. split.
        -- constructor; [|assumption]. intros Hin. apply (Hd k Hin). apply (smset_keys_In k v k Hs). left; reflexivity.
        -- intros q [<-|Hq]; [exact E|]. intros Hin. apply (Hd q Hq). apply (smset_keys_In k v q Hs). right; exact Hin.
      * intros [Hn Hd]. inversion Hn; subst. split; [assumption|].
        intros q Hq Hin. apply (smset_keys_In k v q Hs) in Hin. destruct Hin as [->|Hin]; [contradiction|].
        apply (Hd q); [right; assumption|exact Hin].
Qed.

Lemma setComposition_vec_sum (m : @material RNum) names amounts :
  length names = length amounts -> names <> [] -> Forall (fun a => 0 < a)%R amounts ->
  exists m', setComposition_vec m names amounts = (m', Ok tt) /\
    (Rsum (map snd (getComposition m')) <= 1)%R /\
    (Rsum (map snd (getComposition m')) = 1%R <-> NoDup names).
Proof.
  intros Hl Hne Hp. unfold setComposition_vec. rewrite Hl, Nat.eqb_refl. cbn [negb].
  assert (E : existsb (fun a => @nleb RNum a n0) amounts = false) by (apply amounts_pos; assumption). rewrite E.
  eexists; split; [reflexivity|]. cbn [getComposition m_composition]. rewrite nsum_R.
  assert (HT : (0 < Rsum amounts)%R).
  { apply Rsum_pos; [|assumption]. destruct amounts, names; cbn in *; congruence. }
  cbn. set (l := map (fun na : string * R => (fst na, (snd na / Rsum amounts)%R)) (combine names amounts)).
  assert (K1 : map fst l = names) by (unfold l; rewrite map_map; cbn; apply map_combine_fst; assumption).
  assert (K2 : map snd l = map (fun a => a / Rsum amounts)%R amounts).
  { unfold l. rewrite map_map. cbn. transitivity (map (fun a => a / Rsum amounts)%R (map snd (combine names amounts))).
    - rewrite map_map. reflexivity.
    - rewrite map_combine_snd by assumption. reflexivity. }
  assert (Hl' : Forall (fun kv => 0 < snd kv)%R l).
  { apply Forall_forall. intros x Hx. apply (in_map snd) in Hx. rewrite K2 in Hx. apply in_map_iff in Hx.
    destruct Hx as [a [Ha1 Ha2]]. rewrite <- Ha1. apply Rdiv_lt_0_compat; [|assumption]. rewrite Forall_forall in Hp. auto. }
  destruct (sum_mset_all l [] (smsorted_nil) Hl' (Forall_nil _)) as [S1 S2].
  assert (Hone : Rsum (map snd l) = 1%R) by (rewrite K2, Rsum_div; field; lra).
  rewrite K1 in S2. change (map snd (@nil (string * R))) with (@nil R) in *. cbn [Rsum] in *.
  rewrite Hone in *. replace (0 + 1)%R with 1%R in * by lra. split; [exact S1|].
  split; [intros H; apply S2 in H; tauto|]. intros H; apply S2. split; [assumption|]. cbn; tauto.
Qed.

End AtR.
