(** C21 - C28: Element. *)
From Coq Require Import PrimFloat String List ZArith Bool Reals Lra Lia.
From Verif Require Import Base.Num Base.Res Base.RSum Base.SMap Model.Shell Model.Element Spec.ShellSpec Spec.ElementSpec
  Proofs.ShellProofs Proofs.ShellProofs2 Proofs.ShellProofs3 Proofs.ElementProofs Proofs.ElementProofs2 Proofs.ElementProofs3 Proofs.ElementProofs4
  Proofs.ElementProofs5 Proofs.ElementProofs6 Proofs.ElementProofs7 Proofs.ElementProofs8 Proofs.ElementProofs9 Proofs.ElementProofs10 Proofs.ElementProofs11.
Import ListNotations.
Local Open Scope string_scope.
Local Open Scope R_scope.
Local Existing Instance RNum.

(** ** C21 *)
(** after every history of calls, cached or not (C++17 evaluation order) *)
Theorem C21_sums :
  forall (e0 : element) (ops : list el_op) (E : R) (t : list (string * R)),
  fresh e0 -> getMassAttenuationCoefficients (el_run false e0 ops) E = Ok t ->
  mfind sltb "photoelectric" t = Some (Rsum (map (fun k => value_or_0 k t) photo_names)) /\
  mfind sltb "total" t = Some (value_or_0 "photoelectric" t + value_or_0 "coherent" t + value_or_0 "compton" t + value_or_0 "pair" t).
Proof. intros e0 ops E t. apply history_sums. Qed.
Print Assumptions C21_sums.

(** the partial values are those of the partial tables when one was supplied; without any partial
    table every shell and hence the photoelectric value is 0, whatever photoelectric table was supplied *)
Theorem C21_no_partials_no_photoelectric :
  forall (e : element) (E : R) (t : list (string * R)),
  Forall (fun kv => snd kv = []) (el_ppE e) -> getMassAttenuationCoefficients (uncached e) E = Ok t ->
  value_or_0 "photoelectric" t = 0.
Proof.
  intros e E t Hp H. unfold getMassAttenuationCoefficients in H.
  match type of H with (if ?c then _ else _) = _ => destruct c; [discriminate|] end. change (computeMu (uncached e) E = Ok t) in H.
  pose proof (computeMu_sums _ _ _ H) as [S _]. apply computeMu_spec in H as (_ & (part & Q & V) & _).
  assert (X : existsb (fun kv => Nat.ltb 0 (length (snd kv))) (el_ppE (uncached e)) = false).
  { change (el_ppE (uncached e)) with (el_ppE e). clear - Hp. induction Hp as [|kv l Hkv _ IH]; [reflexivity|].
    destruct kv as [q w]. cbn in Hkv. subst w. exact IH. }
  rewrite X in Q. subst part. rewrite (vSome _ _ _ S). unfold photo_sum. apply Rsum_zero.
  intros k Hk. rewrite (vSome _ _ _ (V k Hk)). reflexivity.
Qed.
Print Assumptions C21_no_partials_no_photoelectric.

(** ** C22 *)
(** the indices returned by the interpolation helper *)
Theorem C22_indices :
  forall (grid : list R) (x : R) (i1 i2 : Z),
  strictly_increasing grid -> (2 <= length grid)%nat -> getInterpolationIndices grid x = (i1, i2) ->
  exists i a b, i1 = Z.of_nat i /\ i2 = Z.of_nat (S i) /\ nth_error grid i = Some a /\ nth_error grid (S i) = Some b /\
    (a < x <= b \/ (i = 0%nat /\ x <= a) \/ (S (S i) = length grid /\ b < x)).
Proof.
  intros grid x i1 i2 Hs Hn H. destruct (indices_spec grid x i1 i2 (strictly_ascending _ Hs) H Hn) as (i & a & b & A1 & A2 & A3 & A4 & A5 & A6).
  exists i, a, b. split; [exact A1|]. split; [exact A2|]. split; [exact A3|]. split; [exact A4|].
  destruct (Rlt_dec b x) as [L|L].
  - right. right. split; [|exact L]. destruct A6 as [A6|A6]; [exact A6|lra].
  - destruct (Rlt_dec a x) as [M|M]; [left; lra|]. right. left. split; [|lra]. destruct A5 as [A5|A5]; [exact A5|contradiction].
Qed.
Print Assumptions C22_indices.

(** coherent, compton and pair coefficients *)
Theorem C22_scattering_interpolated :
  forall (e e' : element) (g ph co cp pr : list R) (k : string) (y : list R) (E : R) (t : list (string * R)),
  setMassAttenuationCoefficients e g ph co cp pr = (e', Ok tt) ->
  In (k, y) [("coherent", co); ("compton", cp); ("pair", pr)] -> good_grid g y -> 0 < E ->
  getMassAttenuationCoefficients e' E = Ok t -> interpolates g y E (value_or_0 k t).
Proof. exact scattering_end_to_end. Qed.
Print Assumptions C22_scattering_interpolated.

(** partial photoelectric coefficients of a shell, from its edge on, and of the other shells *)
Theorem C22_partial_interpolated :
  forall (e e' : element) (k : string) (g y : list R) (E : R) (t : list (string * R)),
  In k photo_names -> setPartialPhotoelectric e k g y = (e', Ok tt) -> good_grid g y -> 0 < E ->
  k = "all other" \/ (exists b, mfind sltb k (getBindingEnergies e) = Some b /\ b <> 0 /\ b <= E /\ Forall (fun x => b <= x) g) ->
  getMassAttenuationCoefficients e' E = Ok t -> interpolates g y E (value_or_0 k t).
Proof. exact partial_end_to_end. Qed.
Print Assumptions C22_partial_interpolated.

Theorem C22_queries_succeed :
  forall (e e' : element) (g ph co cp pr : list R) (E : R),
  fresh e -> spaced g -> (2 <= length g)%nat -> setMassAttenuationCoefficients e g ph co cp pr = (e', Ok tt) ->
  exists t, getMassAttenuationCoefficients e' E = Ok t.
Proof. intros e e' g ph co cp pr E F. apply mu_defined, fresh_no_partials, F. Qed.
Print Assumptions C22_queries_succeed.

(** a table with one point is accepted and every query of it is undefined behaviour *)
Theorem C22_one_point_undefined :
  forall (N : Num) (e e' : @element N) (x : num) (ph co cp pr : list num) (E : num),
  Forall (fun kv => snd kv = []) (el_ppE e) ->
  setMassAttenuationCoefficients e [x] ph co cp pr = (e', Ok tt) -> getMassAttenuationCoefficients e' E = UB.
Proof. exact one_point_UB. Qed.
Print Assumptions C22_one_point_undefined.

Lemma spaced2 a b : 5 / 10000000000 <= b - a -> spaced [a; b].
Proof.
  intros H i x y Hx Hy. destruct i as [|[|i]]; cbn in Hx, Hy; try discriminate.
  injection Hx as <-. injection Hy as <-. exact H.
Qed.
Lemma good2 a b c d : 5 / 10000000000 <= b - a -> 0 < a -> 0 < c -> 0 < d -> good_grid [a; b] [c; d].
Proof.
  intros H Ha Hc Hd. split; [apply spaced2, H|]. split; [cbn; lia|]. split; [reflexivity|].
  split; repeat (constructor; [lra|]); constructor.
Qed.
Lemma asc2 a b : a <= b -> not_ascending a [b] = false.
Proof. intros H. cbn. destruct (Rltb_spec b a); [lra|reflexivity]. Qed.
Definition C22_element : @element RNum := fst (setMassAttenuationCoefficients element_default [1; 4] [1; 1] [3; 5] [1; 2] []).
Lemma C22_set (co : list R) : length co = 2%nat -> setMassAttenuationCoefficients element_default [1; 4] [1; 1] co [1; 2] [] =
  (fst (setMassAttenuationCoefficients element_default [1; 4] [1; 1] co [1; 2] []), Ok tt).
Proof.
  intros H. unfold setMassAttenuationCoefficients.
  destruct co as [|c0 [|c1 [|c2 co]]]; try discriminate. cbn [length Nat.eqb negb Nat.ltb Nat.leb andb].
  rewrite asc2 by lra. reflexivity.
Qed.
(** the hypotheses are met, and at E = 2 between 1 and 4 the coherent value is 3 * sqrt(5/3) *)
Example C22_case : setMassAttenuationCoefficients element_default [1; 4] [1; 1] [3; 5] [1; 2] [] = (C22_element, Ok tt) /\
  good_grid [1; 4] [3; 5] /\
  exists t, getMassAttenuationCoefficients C22_element 2 = Ok t /\ value_or_0 "coherent" t = 3 * exp (ln (5 / 3) * (ln 2 / ln 4)).
Proof.
  assert (A : setMassAttenuationCoefficients element_default [1; 4] [1; 1] [3; 5] [1; 2] [] = (C22_element, Ok tt)) by (apply C22_set; reflexivity).
  assert (B : good_grid [1; 4] [3; 5]) by (apply good2; lra).
  split; [exact A|]. split; [exact B|].
  destruct (C22_queries_succeed element_default C22_element [1; 4] [1; 1] [3; 5] [1; 2] [] 2 (or_introl eq_refl) (proj1 B) (proj1 (proj2 B)) A) as [t T].
  exists t. split; [exact T|].
  destruct (C22_scattering_interpolated element_default C22_element [1; 4] [1; 1] [3; 5] [1; 2] [] "coherent" [3; 5] 2 t A (or_introl eq_refl) B ltac:(lra) T)
    as (_ & I & _). destruct (I 0%nat 1 4 3 5 eq_refl eq_refl eq_refl eq_refl ltac:(lra)) as [-> _].
  unfold power_law. do 3 f_equal. unfold Rdiv. rewrite Rinv_1, !Rmult_1_r. reflexivity.
Qed.

(** with a zero neighbour the value inside the bracket can exceed both neighbours: 1/2 between 0 and 1/4 *)
Theorem C22_zero_neighbour_refuted :
  exists (e e' : @element RNum) (t : list (string * R)),
  setMassAttenuationCoefficients e [1; 4] [1; 1] [0; 1 / 4] [1; 2] [] = (e', Ok tt) /\
  getMassAttenuationCoefficients e' 2 = Ok t /\ value_or_0 "coherent" t = 1 / 2.
Proof.
  exists element_default. eexists.
  pose proof (C22_set [0; 1 / 4] eq_refl) as A.
  match type of A with _ = (?e, _) => set (e' := e) in * end.
  destruct (C22_queries_succeed element_default e' [1; 4] [1; 1] [0; 1 / 4] [1; 2] [] 2 (or_introl eq_refl) (spaced2 1 4 ltac:(lra)) (le_n 2) A) as [t T].
  exists t. split; [exact A|]. split; [exact T|].
  destruct (setMu_Ok _ _ _ _ _ _ _ A) as (C & G & V1 & _).
  apply empty_cache_mu in T; [|exact C]. apply computeMu_spec in T as (_ & _ & S & _).
  destruct (S "coherent" ltac:(cbn; tauto)) as (y & v & L & O & F). rewrite V1 in L. apply Ok_inj in L. subst y. rewrite G in O.
  rewrite (vSome _ _ _ F). unfold otherValue, bracket, getInterpolationIndices, lower_bound in O.
  assert (L5 : nlit 1 (-5) = 1 / 100000) by (change (Rlit 1 (-5) = 1 / 100000); unfold Rlit; simpl; lra).
  rewrite lit_gap, L5 in O. cbn [length] in O. rnorm_in O.
  destruct (Rltb_spec 1 2); [|lra]. destruct (Rltb_spec 4 2); [lra|]. cbn [Nat.eqb Nat.ltb Nat.leb Z.of_nat Pos.of_succ_nat Z.sub Z.opp Z.add Z.pos_sub] in O.
  assert (Z0 : @zget R [1; 4] 0 = Ok 1) by reflexivity. assert (Z1 : @zget R [1; 4] 1 = Ok 4) by reflexivity.
  assert (Y0 : @zget R [0; 1 / 4] 0 = Ok 0) by reflexivity. assert (Y1 : @zget R [0; 1 / 4] 1 = Ok (1 / 4)) by reflexivity.
  match type of O with context [rbind (rbind (zget ?l ?i) _) _] => change (zget l i) with (@zget R [1; 4] 0) in O end.
  rewrite Z0 in O. cbn [rbind] in O.
  match type of O with context [rbind (rbind (zget ?l ?i) _) _] => change (zget l i) with (@zget R [1; 4] 1) in O end.
  rewrite Z1 in O. cbn [rbind] in O.
  destruct (Reqb_spec 2 4); [lra|]. cbn [andb rbind Z.eqb orb] in O.
  destruct (Rltb_spec (4 - 1) (5 / 10000000000)); [lra|].
  match type of O with context [rbind (zget ?l ?i) _] => change (zget l i) with (@zget R [0; 1 / 4] 0) in O end.
  rewrite Y0 in O. cbn [rbind] in O.
  match type of O with context [rbind (zget ?l ?i) _] => change (zget l i) with (@zget R [0; 1 / 4] 1) in O end.
  rewrite Y1 in O. cbn [rbind] in O. rnorm_in O.
  destruct (Rltb_spec 0 0); [lra|]. cbn [andb] in O. destruct (Rltb_spec 0 (1 / 4)); [|lra].
  destruct (Rltb_spec (1 / 100000) (2 - 1)); [|lra]. cbn [andb] in O. apply Ok_inj in O. subst v.
  unfold coefB. rnorm.
  assert (E2 : ln (2 / 1) = ln 2) by (f_equal; lra). assert (E4 : ln (4 / 1) = 2 * ln 2).
  { replace (4 / 1) with (2 * 2) by lra. rewrite ln_mult by lra. lra. }
  assert (EQ : ln (1 / 4) = - (2 * ln 2)).
  { replace (1 / 4) with (/ (2 * 2)) by lra. rewrite ln_Rinv by lra. rewrite ln_mult by lra. lra. }
  assert (P : 0 < ln 2) by (rewrite <- ln_1; apply ln_increasing; lra).
  rewrite E2, E4, EQ. replace (1 / (2 * ln 2) * ln 2 * - (2 * ln 2)) with (- ln 2) by (field; lra).
  rewrite exp_Ropp, exp_ln by lra. lra.
Qed.
Print Assumptions C22_zero_neighbour_refuted.

(** ** C23 *)
(** C++17 evaluation order of cache[k] = f(k): every disciplined history of calls, failing ones included *)
Theorem C23_cache_transparent :
  forall (e0 : element) (ops : list el_op) (E w : R),
  fresh e0 -> disciplined false e0 ops ->
  getMassAttenuationCoefficients (el_run false e0 ops) E = getMassAttenuationCoefficients (uncached (el_run false e0 ops)) E /\
  getPhotoelectricExcitationFactors (el_run false e0 ops) E w = getPhotoelectricExcitationFactors (uncached (el_run false e0 ops)) E w.
Proof.
  intros e0 ops E w F D. destruct (inv_transparent _ (run_inv ops e0 (fresh_inv e0 F) D) E) as [A B]. split; [exact A|apply B].
Qed.
Print Assumptions C23_cache_transparent.

(** either evaluation order, if no call fails *)
Theorem C23_any_evaluation_order :
  forall (lf : bool) (e0 : element) (ops : list el_op) (E w : R),
  fresh e0 -> disciplined lf e0 ops -> all_ok lf e0 ops ->
  getMassAttenuationCoefficients (el_run lf e0 ops) E = getMassAttenuationCoefficients (uncached (el_run lf e0 ops)) E /\
  getPhotoelectricExcitationFactors (el_run lf e0 ops) E w = getPhotoelectricExcitationFactors (uncached (el_run lf e0 ops)) E w.
Proof.
  intros lf e0 ops E w F D A. destruct (run_lf lf ops e0 A) as [-> Q]. apply C23_cache_transparent; [exact F|exact (Q D)].
Qed.
Print Assumptions C23_any_evaluation_order.

Theorem C23_cache_size :
  forall (lf : bool) (e0 : element) (ops : list el_op), fresh e0 ->
  (getCacheSize (el_run lf e0 ops) <= N.to_nat 10000)%nat /\ (length (el_exCache (el_run lf e0 ops)) <= N.to_nat 10000)%nat.
Proof. intros lf e0 ops F. exact (size_both _ (size_run lf ops e0 (size_fresh e0 F))). Qed.
Print Assumptions C23_cache_size.

(** only setCacheEnabled switches the cache (in particular filling it does not leave it disabled) *)
Theorem C23_cache_flag :
  forall (N : Num) (lf : bool) (e0 : element) (ops : list el_op),
  isCacheEnabled (el_run lf e0 ops) = last_cache_flag (isCacheEnabled e0) ops.
Proof. exact (fun N lf e0 ops => @run_flag N lf ops e0). Qed.
Print Assumptions C23_cache_flag.

(** a fill that returns has stored every requested energy (the first 10000 of them) *)
Theorem C23_fill_is_complete :
  forall (lf : bool) (e e' : element) (energies : list R),
  fillCache lf e energies = (e', Ok tt) ->
  getCacheSize e' = length (nodup Req_EM_T (firstn (N.to_nat 10000) energies)).
Proof. exact fill_complete. Qed.
Print Assumptions C23_fill_is_complete.

(** Witnesses in binary64. Two grid points closer than 5e-10 make the coefficients piecewise
    constant, so that nothing depends on exp and log. *)
Definition C23_grid : list float := [10%float; 0x1.400000000dbe7p+3%float].
Definition C23_bindings (k : float) : list (string * float) :=
  [("K", k); ("L1", 0%float); ("L2", 0%float); ("L3", 0%float); ("M1", 0%float); ("M2", 0%float); ("M3", 0%float); ("M4", 0%float); ("M5", 0%float)].
Definition C23_setup : list (@el_op FNum) :=
  [ESetBinding (C23_bindings 5%float);
   ESetMu C23_grid [3%float; 3%float] [1%float; 1%float] [1%float; 1%float] [];
   ESetPartial "K" C23_grid [2%float; 2%float];
   ESetPartial "all other" C23_grid [1%float; 1%float];
   ESetConst "K" [("omega", 0.5%float)];
   ESetRadVec "K" ["KL1"] [1%float];
   ESetCache 1; EUpdateCache [10%float]].

(** setBindingEnergies keeps the cached coefficients *)
Theorem C23_stale_after_setBindingEnergies_refuted :
  exists (e : @element FNum),
  e = el_run false element_default (C23_setup ++ [ESetBinding (C23_bindings 20%float)])%list /\
  rmap (mfind sltb "K") (getMassAttenuationCoefficients e 10%float) = Ok (Some 2%float) /\
  rmap (mfind sltb "K") (getMassAttenuationCoefficients (uncached e) 10%float) = Ok (Some 0%float).
Proof. eexists. split; [reflexivity|]. split; vmrefl. Qed.
Print Assumptions C23_stale_after_setBindingEnergies_refuted.

(** the vector overload of setRadiativeTransitions keeps the cached excitation factors *)
Theorem C23_stale_after_setRadiativeTransitions_refuted :
  exists (e : @element FNum),
  e = el_run false element_default (C23_setup ++ [ESetRadVec "K" ["KL2"] [1%float]])%list /\
  rmap (map fst) (getPhotoelectricExcitationFactors e 10%float 1%float) = Ok ["KL1"] /\
  rmap (map fst) (getPhotoelectricExcitationFactors (uncached e) 10%float 1%float) = Ok ["KL2"].
Proof. eexists. split; [reflexivity|]. split; vmrefl. Qed.
Print Assumptions C23_stale_after_setRadiativeTransitions_refuted.

(** a rejected setShellConstants changes the yield and keeps the cached excitation factors *)
Theorem C23_stale_after_rejected_constants_refuted :
  exists (e : @element FNum),
  e = el_run false element_default (C23_setup ++ [ESetConst "K" [("omega", 0%float); ("zzz", 1%float)]])%list /\
  snd (el_call false (el_run false element_default C23_setup) (ESetConst "K" [("omega", 0%float); ("zzz", 1%float)])) = Throw InvalidArgument /\
  rmap (map fst) (getPhotoelectricExcitationFactors e 10%float 1%float) = Ok ["KL1"] /\
  rmap (map fst) (getPhotoelectricExcitationFactors (uncached e) 10%float 1%float) = Ok [].
Proof. eexists. split; [reflexivity|]. split; [vmrefl|]. split; vmrefl. Qed.
Print Assumptions C23_stale_after_rejected_constants_refuted.

(** with the older evaluation order a fill that throws leaves an empty entry, served afterwards *)
Theorem C23_failed_fill_older_order_refuted :
  exists (e : @element FNum),
  e = el_run true element_default
       ([ESetBinding [("K", 5%float); ("L1", (-1)%float); ("L2", 0%float); ("L3", 0%float); ("M1", 0%float); ("M2", 0%float); ("M3", 0%float); ("M4", 0%float); ("M5", 0%float)];
         ESetPartial "L1" C23_grid [1%float; 1%float]] ++ tl C23_setup)%list /\
  getPhotoelectricExcitationFactors e 10%float 1%float = Ok [] /\
  getPhotoelectricExcitationFactors (uncached e) 10%float 1%float = Throw RuntimeError.
Proof. eexists. split; [reflexivity|]. split; vmrefl. Qed.
Print Assumptions C23_failed_fill_older_order_refuted.

(** a disciplined history with a filled cache *)
Example C23_case : disciplined false (@element_default FNum) (C23_setup ++ [EClearCache; ESetBinding (C23_bindings 20%float)])%list /\
  all_ok false (@element_default FNum) C23_setup /\ getCacheSize (el_run false (@element_default FNum) C23_setup) = 1%nat.
Proof.
  split; [|split].
  - cbn [disciplined app C23_setup]. repeat (split; [first [solve [intros []]|intros H; exfalso; apply H; vmrefl|intros _; split; vmrefl]|]). exact I.
  - cbn [all_ok C23_setup]. repeat (split; [vmrefl|]). exact I.
  - vmrefl.
Qed.

(** ** C24 *)
Theorem C24_distribution :
  forall (e0 : element) (ops : list el_op) (E : R) (d : list (string * R)),
  fresh e0 -> Forall nonneg_op ops ->
  getInitialPhotoelectricVacancyDistribution (el_run false e0 ops) E = Ok d ->
  exists t, getMassAttenuationCoefficients (el_run false e0 ops) E = Ok t /\
    map fst d = photo_names /\ Forall (fun kv => 0 <= snd kv) d /\
    (0 < value_or_0 "photoelectric" t -> Rsum (map snd d) = 1) /\
    (value_or_0 "photoelectric" t = 0 -> Forall (fun kv => snd kv = 0) d) /\
    0 <= value_or_0 "photoelectric" t.
Proof.
  intros e0 ops E d F Hn H. unfold getInitialPhotoelectricVacancyDistribution in H.
  destruct (getMassAttenuationCoefficients (el_run false e0 ops) E) as [t| | |] eqn:T; try discriminate.
  apply Ok_inj in H. subst d. exists t. split; [reflexivity|].
  pose proof (history_sums e0 ops E t F T) as [P _].
  pose proof (inv_nonneg _ E t (nonneg_run ops e0 Hn (nonneg_fresh e0 F)) T) as NN.
  assert (V : vacancies t = map (fun k => (k, value_or_0 k (vacancies t))) photo_names) by reflexivity.
  split; [rewrite V; reflexivity|]. split.
  { rewrite V. apply Forall_forall. intros [k v] Hk. apply in_map_iff in Hk as (k' & Hk & _). injection Hk as <- <-.
    apply vacancies_nonneg, NN. }
  assert (S : map snd (vacancies t) = map (fun k => value_or_0 k (vacancies t)) photo_names).
  { rewrite V at 1. rewrite map_map. reflexivity. }
  split; [|split].
  - intros Hp. refine (eq_trans (f_equal Rsum S) _). apply vacancies_sum; [exact P|]. rewrite (vSome _ _ _ P) in Hp. exact Hp.
  - intros Hz. rewrite V. apply Forall_forall. intros [k v] Hk. apply in_map_iff in Hk as (k' & Hk & Hi). injection Hk as <- <-.
    apply vacancies_zero; [lra|exact Hi].
  - rewrite (vSome _ _ _ P). apply Rsum_map_nonneg, NN.
Qed.
Print Assumptions C24_distribution.

(** a shell without binding energy or above the energy gets no vacancy (calculation cache off) *)
Theorem C24_closed_shells_get_nothing :
  forall (e : element) (E : R) (d : list (string * R)) (k : string) (b : R),
  getInitialPhotoelectricVacancyDistribution (uncached e) E = Ok d -> In k shell_names ->
  mfind sltb k (getBindingEnergies e) = Some b -> b = 0 \/ E < b -> value_or_0 k d = 0.
Proof.
  intros e E d k b H Hk Hb Hlt. unfold getInitialPhotoelectricVacancyDistribution in H.
  destruct (getMassAttenuationCoefficients (uncached e) E) as [t| | |] eqn:T; try discriminate.
  apply Ok_inj in H. subst d. unfold getMassAttenuationCoefficients in T.
  match type of T with (if ?c then _ else _) = _ => destruct c; [discriminate|] end. change (computeMu (uncached e) E = Ok t) in T.
  pose proof (computeMu_below _ _ _ k b T Hk Hb Hlt) as Z.
  assert (Hp : In k photo_names) by (cbn in Hk |- *; tauto).
  unfold value_or_0 at 1. rewrite vacancies_lookup by exact Hp. rewrite Z. destruct (Rltb _ _); [unfold Rdiv; lra|reflexivity].
Qed.
Print Assumptions C24_closed_shells_get_nothing.

Example C24_case :
  rmap (map snd) (getInitialPhotoelectricVacancyDistribution (el_run false (@element_default FNum)
    (C23_setup ++ [EClearCache; ESetPartial "K" C23_grid [3%float; 3%float]])%list) 10%float)
  = Ok [0.75%float; 0%float; 0%float; 0%float; 0%float; 0%float; 0%float; 0%float; 0%float; 0.25%float].
Proof. vmrefl. Qed.

(** ** C25 *)
Theorem C25_excited_shells :
  forall (e : element) (E : R) (k : string),
  In k (getExcitedShells e E) <-> exists b, In (k, b) (getBindingEnergies e) /\ 0 < b < E.
Proof. exact excited_spec. Qed.
Print Assumptions C25_excited_shells.

(** the emitted lines are the lines of the shells with a binding energy below E and a positive
    yield; the shells are visited from K outwards, up to the first one that is not defined *)
Theorem C25_emitted_lines :
  forall (e : element) (E : R) (t : list (string * R)),
  getEmittedXRayLines e E = Ok t ->
  (forall line energy, mfind sltb line t = Some energy -> getTransitionEnergy e line = Ok energy) /\
  (forall line, In line (map fst t) <->
     exists inner k outer sh b w, shell_names = (inner ++ k :: outer)%list /\
       (forall k', In k' inner -> exists s, getShell e k' = Ok s) /\
       getShell e k = Ok sh /\ mfind sltb k (getBindingEnergies e) = Some b /\ b < E /\
       getFluorescenceYield sh = Ok w /\ 0 < w /\ In line (map fst (Shell.getFluorescenceRatios sh))).
Proof.
  intros e E t H.
  destruct (emittedLoop_spec e E shellKeys [] t smsorted_nil ltac:(intros l en; discriminate) H) as (S & C & L).
  split; [exact C|]. intros line.
  assert (M : In line (map fst t) <-> mmem sltb line t = true).
  { unfold mmem. split.
    - intros Hi. apply in_map_iff in Hi as ([l v] & <- & Hi). apply smfind_In in Hi; [|exact S]. cbn. rewrite Hi. reflexivity.
    - destruct (mfind sltb line t) as [v|] eqn:F; [|discriminate]. intros _. apply smfind_In in F; [|exact S].
      apply in_map_iff. exists (line, v). split; [reflexivity|exact F]. }
  rewrite M, L. split.
  - intros [C0|(pre & k & post & A & B & sh & b & w & D)]; [discriminate|].
    exists pre, k, post, sh, b, w. split; [exact A|]. split.
    + intros k' Hk. specialize (B k' Hk). unfold getShell, mmem in *. destruct (mfind sltb k' (el_shells e)) as [s|]; [|discriminate]. exists s. reflexivity.
    + destruct D as (D1 & D2). split; [unfold getShell; rewrite D1; reflexivity|exact D2].
  - intros (pre & k & post & sh & b & w & A & B & D1 & D2). right. exists pre, k, post. split; [exact A|]. split.
    + intros k' Hk. destruct (B k' Hk) as [s Hs]. unfold getShell, mmem in *. destruct (mfind sltb k' (el_shells e)); [reflexivity|discriminate].
    + exists sh, b, w. split; [|exact D2]. unfold getShell in D1. destruct (mfind sltb k (el_shells e)); [apply Ok_inj in D1; subst; reflexivity|discriminate].
Qed.
Print Assumptions C25_emitted_lines.

Example C25_case :
  getEmittedXRayLines (el_run false (@element_default FNum)
    (C23_setup ++ [ESetBinding [("K", 5%float); ("L1", 1%float); ("L3", 0.5%float)];
                   ESetRadVec "K" ["KL1"; "KL3"] [1%float; 3%float]; ESetConst "K" [("omega", 0.5%float)];
                   ESetRadVec "L3" ["L3M1"] [1%float]; ESetConst "L3" [("omega", 0.5%float)]])%list) 6%float
  = Ok [("KL1", 4%float); ("KL3", 4.5%float)] /\
  getExcitedShells (el_run false (@element_default FNum) [ESetBinding [("K", 5%float); ("L1", 1%float); ("L3", 0%float)]]) 5%float = ["L1"].
Proof. split; vmrefl. Qed.

(** ** C26 *)
Theorem C26_cascade :
  forall (e : element) (d : list (string * R)), good_shells e -> nonneg_dist d ->
  exists c, getCascadeModifiedVacancyDistribution e d = Ok c /\
    map fst c = map fst (el_shells e) /\
    (** balance: what a shell has is what it got directly plus what the inner shells transferred *)
    (forall inner k outer, map fst (el_shells e) = (inner ++ k :: outer)%list ->
       value_or_0 k c = value_or_0 k d + Rsum (map (fun j => transfer e j k * value_or_0 j c) inner)) /\
    Forall (fun kv => value_or_0 (fst kv) d <= snd kv) c /\ nonneg_dist c.
Proof.
  intros e d G Hd. exists (map (fun k => (k, out e d k)) (cascadeKeys e)).
  split; [apply cascade_eq; assumption|]. rewrite map_map. cbn [fst]. rewrite map_id.
  split; [apply good_names, G|].
  assert (GE : forall k, In k (cascadeKeys e) -> value_or_0 k d <= out e d k).
  { intros k Hk. unfold out. apply (cval_ge (transfer e) (cascadeKeys e)) with (f := fun x => value_or_0 x d); [|intros y _; apply dist_nonneg, Hd|exact Hk].
    intros pre j post x He Hx. destruct (good_rates e G pre j post He) as (sh & _ & Q). apply Q, Hx. }
  split; [|split].
  - intros inner k outer Hs. rewrite <- (good_names e G) in Hs.
    assert (V : forall x, In x (cascadeKeys e) -> value_or_0 x (map (fun k => (k, out e d k)) (cascadeKeys e)) = out e d x).
    { intros x Hx. rewrite table_value by exact G.
      assert (existsb (String.eqb x) (cascadeKeys e) = true) as -> by (apply existsb_exists; exists x; split; [exact Hx|apply String.eqb_refl]). reflexivity. }
    rewrite V by (rewrite Hs; apply in_app_iff; right; left; reflexivity).
    unfold out at 1. rewrite (cval_eq (transfer e) (cascadeKeys e) _ inner k outer (good_NoDup e G) Hs). f_equal.
    apply Rsum_ext. intros j Hj. rewrite V by (rewrite Hs; apply in_app_iff; left; exact Hj). reflexivity.
  - apply Forall_forall. intros [k v] Hk. apply in_map_iff in Hk as (k' & Hk & Hi). injection Hk as <- <-. apply GE, Hi.
  - apply Forall_forall. intros [k v] Hk. apply in_map_iff in Hk as (k' & Hk & Hi). injection Hk as <- <-. apply (out_nonneg e d k' G Hd Hi).
Qed.
Print Assumptions C26_cascade.

(** the innermost shell keeps its vacancies *)
Theorem C26_innermost_unchanged :
  forall (e : element) (d c : list (string * R)) (k : string) (outer : list string),
  good_shells e -> nonneg_dist d -> getCascadeModifiedVacancyDistribution e d = Ok c ->
  map fst (el_shells e) = k :: outer -> value_or_0 k c = value_or_0 k d.
Proof.
  intros e d c k outer G Hd H Hs. destruct (C26_cascade e d G Hd) as (c' & H' & _ & B & _). rewrite H in H'. apply Ok_inj in H'. subst c'.
  rewrite (B [] k outer Hs). cbn. lra.
Qed.
Print Assumptions C26_innermost_unchanged.

(** [d] = a * d1 + b * d2 shell by shell *)
Theorem C26_linear :
  forall (e : element) (a b : R) (d1 d2 d c1 c2 : list (string * R)),
  good_shells e -> 0 <= a -> 0 <= b -> nonneg_dist d1 -> nonneg_dist d2 -> nonneg_dist d ->
  (forall k, In k (map fst (el_shells e)) -> value_or_0 k d = a * value_or_0 k d1 + b * value_or_0 k d2) ->
  getCascadeModifiedVacancyDistribution e d1 = Ok c1 -> getCascadeModifiedVacancyDistribution e d2 = Ok c2 ->
  exists c, getCascadeModifiedVacancyDistribution e d = Ok c /\
  forall k, value_or_0 k c = a * value_or_0 k c1 + b * value_or_0 k c2.
Proof.
  intros e a b d1 d2 d c1 c2 G Ha Hb H1 H2 Hd L E1 E2.
  rewrite (cascade_eq e d1 G H1) in E1. rewrite (cascade_eq e d2 G H2) in E2. apply Ok_inj in E1, E2. subst c1 c2.
  exists (map (fun k => (k, out e d k)) (cascadeKeys e)). split; [apply cascade_eq; assumption|].
  intros k. rewrite !(table_value e) by exact G. destruct (existsb (String.eqb k) (cascadeKeys e)); [|lra].
  unfold out. rewrite <- cval_linear. apply cval_ext. intros y Hy. apply L. rewrite <- (good_names e G). exact Hy.
Qed.
Print Assumptions C26_linear.

(** an element with three shells, its K shell emitting a line and an Auger electron *)
Definition C26_ops {N : Num} (one ten two half : num) : list el_op :=
  [ESetBinding [("K", ten); ("L1", two); ("L2", one)];
   ESetNonVec "K" ["K-L1L2"; "TOTAL"] [one; one]; ESetRadVec "K" ["KL2"] [one]; ESetConst "K" [("omega", half)]].
Definition new_shell (name : string) : @shell RNum :=
  match shell_new name with Ok s => s | _ => mkShell "" 0 0 [] [] [] [] [] [] end.
Definition C26_shell : @shell RNum :=
  fst (sh_step (fst (sh_step (fst (sh_step (new_shell "K") (SNonVec ["K-L1L2"; "TOTAL"] [1; 1]))) (SRadVec ["KL2"] [1]))) (SConst [("omega", 1/2)])).
Definition C26_element : @element RNum := el_run false element_default (C26_ops 1 10 2 (1/2)).
Definition C26_explicit : @element RNum :=
  with_shells (with_binding element_default [("K", 10); ("L1", 2); ("L2", 1)]) [("K", C26_shell); ("L1", new_shell "L1"); ("L2", new_shell "L2")].
Lemma C26_element_eq : C26_element = C26_explicit.
Proof.
  assert (G : forall (e : @element RNum) s, mfind sltb "K" (el_binding e) = Some 10 -> mfind sltb "K" (el_shells e) = Some s -> shellGuard e "K" = Ok s).
  { intros e s H1 H2. unfold shellGuard. rewrite H1, H2. rnorm. destruct (Rleb_spec 10 0); [lra|reflexivity]. }
  set (rest1 := [ESetRadVec "K" ["KL2"] [1]; ESetConst "K" [("omega", 1/2)]] : list (@el_op RNum)).
  set (e1 := fst (@setBindingEnergies RNum element_default [("K", 10); ("L1", 2); ("L2", 1)])).
  set (e2 := clearCache (with_shells e1 [("K", fst (sh_step (new_shell "K") (SNonVec ["K-L1L2"; "TOTAL"] [1; 1]))); ("L1", new_shell "L1"); ("L2", new_shell "L2")])).
  set (e3 := with_shells e2 [("K", fst (sh_step (fst (sh_step (new_shell "K") (SNonVec ["K-L1L2"; "TOTAL"] [1; 1]))) (SRadVec ["KL2"] [1]))); ("L1", new_shell "L1"); ("L2", new_shell "L2")]).
  assert (E1 : setNonradiativeTransitions_vec e1 "K" ["K-L1L2"; "TOTAL"] [1; 1] = (e2, Ok tt)).
  { unfold setNonradiativeTransitions_vec. rewrite (G e1 (new_shell "K")) by reflexivity. reflexivity. }
  assert (E2 : setRadiativeTransitions_vec e2 "K" ["KL2"] [1] = (e3, Ok tt)).
  { unfold setRadiativeTransitions_vec. rewrite (G e2 (fst (sh_step (new_shell "K") (SNonVec ["K-L1L2"; "TOTAL"] [1; 1])))) by reflexivity. reflexivity. }
  refine (eq_trans (f_equal (fun x => el_run false (fst x) rest1) E1) _).
  refine (eq_trans (f_equal (fun x => el_run false (fst x) (tl rest1)) E2) _). reflexivity.
Qed.
Lemma C26_nonrad : nonrad_ok [("K-L1L2", 1); ("TOTAL", 1)].
Proof.
  split; [repeat (constructor; [cbn; lra|]); constructor|]. split; [|repeat constructor]. intros T HT. cbn in HT. injection HT as <-. unfold total_of; cbn. lra.
Qed.
Lemma new_good1 : good_shell "L1" (new_shell "L1").
Proof.
  split; [apply physical_new; reflexivity|]. split.
  - change (Forall (fun kv => 0 <= snd kv) [("f12", 0); ("f13", 0); ("omega", 0)]). repeat (constructor; [cbn; lra|]); constructor.
  - change (total_of [("f12", 0); ("f13", 0); ("omega", 0)] <= 1). unfold total_of. cbn. lra.
Qed.
Lemma new_good2 : good_shell "L2" (new_shell "L2").
Proof.
  split; [apply physical_new; reflexivity|]. split.
  - change (Forall (fun kv => 0 <= snd kv) [("f23", 0); ("omega", 0)]). repeat (constructor; [cbn; lra|]); constructor.
  - change (total_of [("f23", 0); ("omega", 0)] <= 1). unfold total_of. cbn. lra.
Qed.
Example C26_case : good_shells C26_element /\ own_labels C26_element /\ line_energies_defined C26_element /\
  el_cascCache C26_element = [] /\ el_cascFlag C26_element = false.
Proof.
  assert (K : good_shell "K" C26_shell).
  { split; [|split].
    - unfold C26_shell. apply physical_step; [apply physical_step; [apply physical_step; [apply physical_new; reflexivity|exact I|exact C26_nonrad]| |exact C26_nonrad]|exact I|exact C26_nonrad].
      cbn. repeat (constructor; [lra|]); constructor.
    - change (Forall (fun kv => 0 <= snd kv) [("omega", 1/2)]). constructor; [cbn; lra|constructor].
    - change (total_of [("omega", 1/2)] <= 1). unfold total_of. cbn. lra. }
  assert (L : forall P : string * R -> Prop, (forall r, P ("KL2", r)) -> Forall P (Shell.getFluorescenceRatios C26_shell)).
  { intros P HP. apply Forall_forall. intros x Hx.
    assert (Q : map fst (Shell.getFluorescenceRatios C26_shell) = ["KL2"]).
    { set (s1 := fst (sh_step (new_shell "K") (SNonVec ["K-L1L2"; "TOTAL"] [1; 1]))).
      change (map fst (sh_fluo (updateFluorescenceRatios (with_rad s1 [("KL2", 1)]))) = ["KL2"]).
      unfold updateFluorescenceRatios. cbn [sh_rad with_rad filter map snd fst with_fluo sh_fluo]. rnorm. destruct (Rltb_spec 0 1); [reflexivity|lra]. }
    apply (in_map fst) in Hx. change (In (fst x) (map fst (Shell.getFluorescenceRatios C26_shell))) in Hx. rewrite Q in Hx. destruct x as [q r]. destruct Hx as [Hx|[]]. cbn in Hx. subst q. apply HP. }
  rewrite C26_element_eq.
  split; [|split; [|split; [|split; reflexivity]]].
  - split; [reflexivity|].
    constructor; [exact K|]. constructor; [exact new_good1|]. constructor; [exact new_good2|constructor].
  - constructor; [|constructor; [constructor|constructor; [constructor|constructor]]]. apply L. intros r. exists "L2". reflexivity.
  - split.
    + constructor; [split; [cbn; lra|apply L; intros; cbn; lia]|].
      constructor; [split; [cbn; lra|constructor]|]. constructor; [split; [cbn; lra|constructor]|constructor].
    + change (nonneg_dist [("K", 10); ("L1", 2); ("L2", 1)]). repeat (constructor; [cbn; lra|]); constructor.
Qed.
(** one K vacancy gives half a vacancy in L1 and half in L2 *)
Example C26_value :
  getCascadeModifiedVacancyDistribution (el_run false (@element_default FNum) (C26_ops (N:=FNum) 1%float 10%float 2%float 0.5%float)) [("K", 1%float); ("L2", 0.25%float)]
  = Ok [("K", 1%float); ("L1", 0.5%float); ("L2", 1.25%float)].
Proof. vmrefl. Qed.

(** ** C27 *)
(** the rate of every line: branching ratio x vacancies after the cascade x fluorescence yield *)
Theorem C27_line_rates :
  forall (e : element) (d : list (string * R)),
  good_shells e -> own_labels e -> line_energies_defined e -> nonneg_dist d -> el_cascFlag e = false ->
  exists l c, getXRayLinesFromVacancyDistribution e d 1 1 = Ok l /\ getCascadeModifiedVacancyDistribution e d = Ok c /\
    (forall line t, mfind sltb line l = Some t -> exists k sh, mfind sltb k (el_shells e) = Some sh /\ In line (map fst (Shell.getFluorescenceRatios sh))) /\
    forall k sh line ratio, mfind sltb k (el_shells e) = Some sh -> In (line, ratio) (Shell.getFluorescenceRatios sh) ->
      let rate := ratio * value_or_0 k c * value_or_0 "omega" (Shell.getShellConstants sh) in
      0 <= rate /\
      (rate = 0 -> mfind sltb line l = None) /\
      (0 < rate -> exists energy, mfind sltb line l = Some [("energy", energy); ("rate", rate)] /\
                   forall from, line = (k ++ from)%string -> String.length from = 2%nat -> getTransitionEnergy e line = Ok energy).
Proof. exact line_rates. Qed.
Print Assumptions C27_line_rates.

(** filling the cache succeeds, and the cached answer is the direct one *)
Theorem C27_cache_transparent :
  forall (lf : bool) (e : element), good_shells e -> own_labels e -> line_energies_defined e -> el_cascCache e = [] ->
  exists e', setCascadeCacheEnabled lf e 1 = (e', Ok tt) /\
  forall d : list (string * R), msorted sltb d -> nonneg_dist d -> (forall s, In s (map fst d) -> In s (map fst (el_shells e)) \/ s = "all other") ->
  exists l, getXRayLinesFromVacancyDistribution e' d 1 1 = Ok l /\
            getXRayLinesFromVacancyDistribution (fst (setCascadeCacheEnabled lf e' 0)) d 1 1 = Ok l.
Proof.
  intros lf e G O L C. destruct (enable_ok lf e G O L) as [e' E]. exists e'. split; [exact E|].
  intros d. exact (cascade_cache lf e e' d G O C E).
Qed.
Print Assumptions C27_cache_transparent.

(** whenever the fill succeeds, whatever the energies *)
Theorem C27_filled_cache_transparent :
  forall (lf : bool) (e e' : element) (d : list (string * R)),
  good_shells e -> own_labels e -> el_cascCache e = [] -> setCascadeCacheEnabled lf e 1 = (e', Ok tt) ->
  msorted sltb d -> nonneg_dist d -> (forall s, In s (map fst d) -> In s (map fst (el_shells e)) \/ s = "all other") ->
  exists l, getXRayLinesFromVacancyDistribution e' d 1 1 = Ok l /\
            getXRayLinesFromVacancyDistribution (fst (setCascadeCacheEnabled lf e' 0)) d 1 1 = Ok l.
Proof. exact cascade_cache. Qed.
Print Assumptions C27_filled_cache_transparent.

(** new shell constants are never hidden by the cascade cache *)
Theorem C27_constants_take_effect :
  forall (N : Num) (lf : bool) (e e' : element) (shell : string) (constants d : list (string * num)) (cascade useYield : Z),
  el_call lf e (ESetConst shell constants) = (e', Ok tt) ->
  isCascadeCacheFilled e' = 0%nat /\
  getXRayLinesFromVacancyDistribution e' d cascade useYield =
  getXRayLinesFromVacancyDistribution (fst (setCascadeCacheEnabled lf e' 0)) d cascade useYield.
Proof.
  intros N lf e e' shell constants d cascade useYield H. pose proof (@constants_empty N lf e shell constants e' H) as E.
  split; [exact E|exact (@empty_is_direct N lf e' d cascade useYield E)].
Qed.
Print Assumptions C27_constants_take_effect.

(** the cascade cache is not emptied by setRadiativeTransitions: stale lines *)
Theorem C27_stale_after_setRadiativeTransitions_refuted :
  exists e : @element FNum,
  e = el_run false element_default (C26_ops (N:=FNum) 1%float 10%float 2%float 0.5%float ++ [ESetCascade 1; ESetRadVec "K" ["KL3"] [1%float]])%list /\
  rmap (map fst) (getXRayLinesFromVacancyDistribution e [("K", 1%float)] 1 1) = Ok ["KL2"] /\
  rmap (map fst) (getXRayLinesFromVacancyDistribution (fst (setCascadeCacheEnabled false e 0)) [("K", 1%float)] 1 1) = Ok ["KL3"].
Proof. eexists. split; [reflexivity|]. split; vmrefl. Qed.
Print Assumptions C27_stale_after_setRadiativeTransitions_refuted.

(** without own_labels (a shell may carry a five-character label of another one) the cached query adds
    the contributions and the direct one overwrites them *)
Theorem C27_foreign_labels_refuted :
  exists (e : @element FNum) (d : list (string * float)),
  e = el_run false element_default (C26_ops (N:=FNum) 1%float 10%float 2%float 0.5%float ++
        [ESetNonVec "K" ["K-L2L2"; "TOTAL"] [1%float; 1%float]; ESetRadVec "L1" ["KL245"] [1%float]; ESetRadVec "K" ["KL245"] [1%float];
         ESetConst "L1" [("omega", 0.5%float)]; ESetCascade 1])%list /\
  rmap (map (fun kv => (fst kv, mfind sltb "rate" (snd kv)))) (getXRayLinesFromVacancyDistribution e d 1 1) = Ok [("KL24", Some 1%float)] /\
  rmap (map (fun kv => (fst kv, mfind sltb "rate" (snd kv)))) (getXRayLinesFromVacancyDistribution (fst (setCascadeCacheEnabled false e 0)) d 1 1)
  = Ok [("KL24", Some 0.5%float)].
Proof. eexists. exists [("K", 1%float); ("L1", 1%float)]. split; [reflexivity|]. split; vmrefl. Qed.
Print Assumptions C27_foreign_labels_refuted.

Example C27_case :
  rmap (map (fun kv => (fst kv, mfind sltb "rate" (snd kv), mfind sltb "energy" (snd kv))))
    (getXRayLinesFromVacancyDistribution (el_run false (@element_default FNum)
       (C26_ops (N:=FNum) 1%float 10%float 2%float 0.5%float ++ [ESetCascade 1])%list) [("K", 1%float)] 1 1)
  = Ok [("KL2", Some 0.5%float, Some 9%float)].
Proof. vmrefl. Qed.

(** ** C28 *)
Theorem C28_transition_energy :
  forall (e : element) (shell from : string),
  String.length from = 2%nat -> (1 <= String.length shell <= 2)%nat ->
  getTransitionEnergy e (shell ++ from) =
    if Rleb (value_or_0 shell (getBindingEnergies e)) 0 then Throw DomainError
    else if Rltb (value_or_0 from (getBindingEnergies e)) 0 then Throw RuntimeError
    else Ok (value_or_0 shell (getBindingEnergies e) -
             (if Reqb (value_or_0 from (getBindingEnergies e)) 0 then 3 / 1000 else value_or_0 from (getBindingEnergies e))).
Proof.
  intros e shell from Hf Hs. rewrite transition_split by assumption. apply transitionEnergy_spec.
Qed.
Print Assumptions C28_transition_energy.

Theorem C28_other_lengths :
  forall (N : Num) (e : @element N) (label : string),
  String.length label <> 3%nat -> String.length label <> 4%nat -> getTransitionEnergy e label = Throw DomainError.
Proof.
  intros N e label H3 H4. unfold getTransitionEnergy.
  destruct (Nat.eqb_spec (String.length label) 4); [contradiction|]. destruct (Nat.eqb_spec (String.length label) 3); [contradiction|]. reflexivity.
Qed.
Print Assumptions C28_other_lengths.

Theorem C28_total :
  forall (e : element) (label : string),
  (exists x : R, getTransitionEnergy e label = Ok x) \/ getTransitionEnergy e label = Throw DomainError \/ getTransitionEnergy e label = Throw RuntimeError.
Proof.
  intros e label. unfold getTransitionEnergy.
  destruct (Nat.eqb _ 4); [|destruct (Nat.eqb _ 3); [|auto]]; rewrite transitionEnergy_spec;
    (destruct (Rleb _ 0); [auto|]; destruct (Rltb _ 0); [auto|]; left; eexists; reflexivity).
Qed.
Print Assumptions C28_total.

Example C28_case :
  let e := el_run false (@element_default FNum) [ESetBinding [("K", 10%float); ("L3", 2%float)]] in
  getTransitionEnergy e "KL3" = Ok 8%float /\ getTransitionEnergy e "L3M1" = Ok 0x1.ff3b645a1cac1p+0%float /\
  getTransitionEnergy e "M1N1" = Throw DomainError /\ getTransitionEnergy e "KL" = Throw DomainError.
Proof. cbn zeta. repeat split; vmrefl. Qed.
