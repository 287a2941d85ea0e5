(** C35, C36: mixtures and peak families. *)
From Coq Require Import Ascii String List ZArith QArith Reals Bool Lia Lra Sorted.
From Verif Require Import Base.Num Base.Res Base.RSum Base.SMap Base.Str Base.ListLemmas Model.Material Model.Shell Model.Element Model.Formula Model.Elements
  Spec.MaterialSpec Spec.ShellSpec Spec.ElementSpec Spec.FormulaSpec Spec.BeamSpec Spec.ElementsSpec Proofs.ElementProofs Proofs.ElementProofs5 Proofs.ElementProofs8
  Proofs.FormulaProofs Proofs.FormulaProofs2 Proofs.BeamProofs
  Proofs.ElementsProofs Proofs.ElementsProofs2 Proofs.ElementsProofs3 Proofs.ElementsProofs4 Proofs.ElementsProofs5 Proofs.ElementsProofs6
  Properties.ElementProps Properties.ElementsProps2.
Import ListNotations.
Local Close Scope Q_scope.
Local Open Scope string_scope.
Local Existing Instance RNum.
Local Open Scope R_scope.
Local Notation tbl := (list (string * R)).

Lemma transpose_vectors (m : R -> string -> R) energies :
  @transpose_mu RNum (map (fun E => mu_table (m E) E) energies) = mu_vectors m energies.
Proof.
  unfold transpose_mu, muNames, mu_vectors. cbn [map]. rewrite !map_map.
  assert (I : map (fun x => @val0 RNum (mu_table (m x) x) "energy") energies = energies) by (refine (eq_trans _ (map_id energies)); reflexivity).
  rewrite I. reflexivity.
Qed.

Lemma mu_vectors_ext (m m' : R -> string -> R) energies : (forall E p, m E p = m' E p) -> mu_vectors m energies = mu_vectors m' energies.
Proof.
  intros H. assert (A : forall p, map (fun E => m E p) energies = map (fun E => m' E p) energies) by (intros p; apply map_ext; intros E; apply H).
  assert (T : map (fun E => m E "coherent" + m E "compton" + m E "pair" + m E "photoelectric") energies =
              map (fun E => m' E "coherent" + m' E "compton" + m' E "pair" + m' E "photoelectric") energies) by (apply map_ext; intros E; rewrite !H; reflexivity).
  unfold mu_vectors. rewrite !A, T. reflexivity.
Qed.

(** ** C35 Mixture rule for mass attenuation coefficients *)
(** After every history: amounts (not negative, positive total) of constituents with the element
    mass fractions [c k]; every process is the mean of the element coefficients weighted with the
    amounts, and the total is the sum of the processes. One energy and a list of energies. *)
Theorem C35_mixture (tostr : R -> string) (depth fuel : nat) (lf : bool) (ops : list es_op)
    (input : tbl) (energies : list R) (c : string -> tbl) (mu : R -> string -> tbl) :
  let es := es_run tostr depth fuel lf elements_empty ops in
  (forall k w, In (k, w) input -> 0 <= w /\ Elements.getComposition tostr depth fuel es k = Ok (c k) /\ c k <> []) ->
  0 < Rsum (map snd input) ->
  (forall E k w s x, In E energies -> In (k, w) input -> In (s, x) (c k) -> mu_at (registered lf ops) s E (mu E s)) ->
  getMu_map_vec tostr depth fuel es input energies 0 = Ok (mu_vectors (fun E => mean input c (mu E)) energies) /\
  forall E, In E energies -> getMu_map tostr depth fuel es input E 0 = Ok (mu_table (mean input c (mu E)) E).
Proof.
  intros es H Ht Hmu. pose proof (run_reg tostr depth fuel lf ops _ _ empty_reg) as Hreg. fold es in Hreg. split.
  - unfold getMu_map_vec. rewrite (mixture_list es _ Hreg tostr depth fuel input energies c mu H Ht Hmu). unfold rmap. cbn [rbind].
    f_equal. apply transpose_vectors.
  - intros E I. unfold getMu_map. refine (eq_trans (f_equal (fun z => rbind z _) (mixture_list es _ Hreg tostr depth fuel input [E] c mu H Ht _)) _); [|reflexivity].
    intros E' k w s x [<-|[]]. apply Hmu, I.
Qed.
(** Only the ratios of the amounts matter: multiplying all of them by a positive number changes
    nothing, whatever the input, errors included, in every state. *)
Theorem C35_only_ratios (tostr : R -> string) (depth fuel : nat) (es : elements) (a : R) (input : tbl) (energies : list R) (E : R) :
  0 < a ->
  getMu_map_vec tostr depth fuel es (map (fun kw => (fst kw, a * snd kw)) input) energies 0 = getMu_map_vec tostr depth fuel es input energies 0 /\
  getMu_map tostr depth fuel es (map (fun kw => (fst kw, a * snd kw)) input) E 0 = getMu_map tostr depth fuel es input E 0.
Proof.
  intros Ha. unfold getMu_map_vec, getMu_map. split.
  - exact (f_equal _ (scaled_list tostr depth fuel es a input energies Ha)).
  - exact (f_equal (fun z => rbind z _) (scaled_list tostr depth fuel es a input [E] Ha)).
Qed.
(** A negative amount, a constituent that can not be resolved, or a total that is not positive:
    invalid_argument. *)
Theorem C35_rejected (tostr : R -> string) (depth fuel : nat) (es : elements) (input : tbl) (energies : list R) (E : R) :
  (forall k w, In (k, w) input -> exists c, Elements.getComposition tostr depth fuel es k = Ok c) ->
  (exists k w, In (k, w) input /\ (w < 0 \/ Elements.getComposition tostr depth fuel es k = Ok [])) \/ Rsum (map snd input) <= 0 ->
  getMu_map_vec tostr depth fuel es input energies 0 = Throw InvalidArgument /\
  getMu_map tostr depth fuel es input E 0 = Throw InvalidArgument.
Proof.
  intros Hc H. assert (G : forall l, getMu_map_list tostr depth fuel es input l 0 = Throw InvalidArgument).
  { intros l. unfold getMu_map_list. cbn [Z.eqb].
    assert (D : (exists k w, In (k, w) input /\ (w < 0 \/ Elements.getComposition tostr depth fuel es k = Ok [])) \/
       (forall k w, In (k, w) input -> 0 <= w /\ Elements.getComposition tostr depth fuel es k <> Ok [])).
    { clear H. induction input as [|[k w] input IH]; [right; intros k w []|].
      destruct (IH (fun k' w' I => Hc k' w' (or_intror I))) as [(k' & w' & I & Q)|Q]; [left; exists k', w'; split; [right; exact I|exact Q]|].
      destruct (Rlt_dec w 0) as [L|L]; [left; exists k, w; split; [left; reflexivity|auto]|].
      destruct (Hc k w (or_introl eq_refl)) as [c Ec]. destruct c as [|x c]; [left; exists k, w; split; [left; reflexivity|auto]|].
      right. intros k' w' [Z|I]; [injection Z as <- <-; split; [lra|rewrite Ec; discriminate]|apply (Q k' w' I)]. }
    destruct D as [D|D].
    - change (@n0 RNum) with 0. rewrite (mixtureElements_negative _ input Hc D). reflexivity.
    - assert (Hs : exists cf : string -> tbl, forall k w, In (k, w) input -> 0 <= w /\ Elements.getComposition tostr depth fuel es k = Ok (cf k) /\ cf k <> []).
      { exists (fun k => match Elements.getComposition tostr depth fuel es k with Ok c => c | _ => [] end). intros k w I.
        destruct (D k w I) as [D1 D2]. destruct (Hc k w I) as [c Ec]. rewrite Ec in *. split; [exact D1|]. split; [reflexivity|]. intros ->. apply D2. reflexivity. }
      destruct Hs as [cf Hs].
      destruct (mixtureElements_spec (Elements.getComposition tostr depth fuel es) cf input Hs [] 0 smsorted_nil) as [out [Eo _]].
      change (@n0 RNum) with 0. rewrite Eo. cbn [rbind snd fst]. rewrite Rplus_0_l. rnorm.
      destruct (Rleb_spec (Rsum (map snd input)) 0) as [_|Q]; [reflexivity|]. exfalso.
      destruct H as [(k & w & I & [Q1|Q1])|Q1]; [destruct (D k w I); lra|exact (proj2 (D k w I) Q1)|lra]. }
  unfold getMu_map_vec, getMu_map. rewrite !G. auto.
Qed.
(** With isComposition the fractions are used as they are, not normalised. *)
Theorem C35_as_given (tostr : R -> string) (depth fuel : nat) (lf : bool) (ops : list es_op)
    (input : tbl) (energies : list R) (flag : Z) (mu : R -> string -> tbl) :
  let es := es_run tostr depth fuel lf elements_empty ops in
  flag <> 0%Z -> (forall E s x, In E energies -> In (s, x) input -> mu_at (registered lf ops) s E (mu E s)) ->
  getMu_map_vec tostr depth fuel es input energies flag = Ok (mu_vectors (fun E => weighted input (mu E)) energies) /\
  forall E, In E energies -> getMu_map tostr depth fuel es input E flag = Ok (mu_table (weighted input (mu E)) E).
Proof.
  intros es Hf Hmu. pose proof (run_reg tostr depth fuel lf ops _ _ empty_reg) as Hreg. fold es in Hreg. split.
  - unfold getMu_map_vec. rewrite (composition_list es _ Hreg tostr depth fuel input energies flag mu Hf Hmu). unfold rmap. cbn [rbind].
    f_equal. apply (transpose_vectors (fun E => weighted input (mu E))).
  - intros E I. unfold getMu_map. refine (eq_trans (f_equal (fun z => rbind z _) (composition_list es _ Hreg tostr depth fuel input [E] flag mu Hf _)) _); [|reflexivity].
    intros E' s x [<-|[]]. apply Hmu, I.
Qed.
(** By name: of an element its own coefficients; of anything else that has a composition [c], the
    mean over the elements of [c]. The elements must have symbols for names and positive masses. *)
Theorem C35_by_name (tostr : R -> string) (depth fuel : nat) (lf : bool) (ops : list es_op) (name : string) (E : R) :
  let es := es_run tostr depth fuel lf elements_empty ops in
  name <> "" ->
  (forall e, registered lf ops name = Some e -> getMu_name tostr depth fuel es name E = Element.getMassAttenuationCoefficients e E) /\
  (forall (c : tbl) (mu : string -> tbl), registered lf ops name = None ->
     Elements.getComposition tostr depth fuel es name = Ok c -> c <> [] -> (1 <= depth)%nat ->
     (forall s x, In (s, x) c -> 0 < x /\ symbol s /\ (exists a, has_mass lf ops s a) /\ mu_at (registered lf ops) s E (mu s)) ->
     getMu_name tostr depth fuel es name E = Ok (mu_table (fun p => weighted c mu p / Rsum (map snd c)) E)).
Proof.
  intros es Hn. pose proof (run_reg tostr depth fuel lf ops _ _ empty_reg) as Hreg. fold es in Hreg.
  destruct (getElement_registered es _ name Hreg) as [G1 G2]. destruct (String.eqb_spec name "") as [Q|_]; [contradiction|].
  assert (Mem : mmem sltb name (es_dict es) = match registered lf ops name with Some _ => true | None => false end).
  { unfold isElementNameDefined in G2. cbn [negb andb] in G2. destruct (Nat.eqb (String.length name) 0) eqn:L; [destruct name; [congruence|discriminate]|].
    cbn in G2. exact G2. }
  split.
  - intros e He. unfold getMu_name. rewrite Mem, He, G1. change (fold_left _ ops _ name) with (registered lf ops name). rewrite He. reflexivity.
  - intros c mu Hr Hc Hne Hd H. unfold getMu_name. rewrite Mem, Hr, Hc. cbn [rbind]. destruct c as [|p c']; [exfalso; apply Hne; reflexivity|].
    set (c := p :: c') in *. unfold getMu_map.
    refine (eq_trans (f_equal (fun z => rbind z _) (mixture_list es _ Hreg tostr depth fuel c [E] (fun s => [(s, 1)]) (fun _ => mu) _ _ _)) _).
    4: {  cbn [map rbind vget nth_error of_opt]. f_equal. unfold mu_table.
      assert (M : forall p, mean c (fun s => [(s, 1)]) mu p = weighted c mu p / Rsum (map snd c)).
      { intros q. unfold mean, weighted. f_equal. f_equal. apply map_ext. intros [s x]. cbn. lra. }
      rewrite !M. reflexivity. }
    + intros s x I. destruct (H s x I) as (Hx & Hs & [a [e [He [Ha Ha0]]]] & _). split; [lra|]. split; [|discriminate].
      destruct fuel as [|fuel']; [discriminate Hc|]. rewrite comp_S.
      rewrite (symbol_formula tostr depth es _ Hreg s e a Hd Hs He Ha Ha0). reflexivity.
    + apply Rsum_pos; [discriminate|]. apply Forall_forall. intros x I. apply in_map_iff in I. destruct I as [[s y] [<- I]]. exact (proj1 (H s y I)).
    + intros E' s w s' x' [<-|[]] I [Z|[]]. injection Z as <- <-. exact (proj2 (proj2 (proj2 (H s w I)))).
Qed.
Theorem C35_by_name_vector (tostr : R -> string) (depth fuel : nat) (lf : bool) (ops : list es_op) (name : string) (energies : list R)
    (c : tbl) (mu : R -> string -> tbl) :
  let es := es_run tostr depth fuel lf elements_empty ops in
  name <> "" -> registered lf ops name = None ->
  Elements.getComposition tostr depth fuel es name = Ok c -> c <> [] -> (1 <= depth)%nat ->
  (forall s x, In (s, x) c -> 0 < x /\ symbol s /\ (exists a, has_mass lf ops s a) /\ forall E, In E energies -> mu_at (registered lf ops) s E (mu E s)) ->
  getMu_name_vec tostr depth fuel es name energies = Ok (mu_vectors (fun E p => weighted c (mu E) p / Rsum (map snd c)) energies).
Proof.
  intros es Hn Hr Hc Hne Hd H. pose proof (run_reg tostr depth fuel lf ops _ _ empty_reg) as Hreg. fold es in Hreg.
  destruct (getElement_registered es _ name Hreg) as [G1 G2]. destruct (String.eqb_spec name "") as [Q|_]; [contradiction|].
  assert (Mem : mmem sltb name (es_dict es) = false).
  { unfold isElementNameDefined in G2. cbn [negb andb] in G2. destruct (Nat.eqb (String.length name) 0) eqn:L; [destruct name; [congruence|discriminate]|].
    cbn in G2. rewrite G2. change (fold_left _ ops _ name) with (registered lf ops name). rewrite Hr. reflexivity. }
  unfold getMu_name_vec. rewrite Mem, Hc. cbn [rbind]. destruct c as [|p c']; [exfalso; apply Hne; reflexivity|].
  set (c := p :: c') in *. unfold getMu_map_vec.
  rewrite (mixture_list es _ Hreg tostr depth fuel c energies (fun s => [(s, 1)]) mu).
  - unfold rmap. cbn [rbind]. f_equal. refine (eq_trans (transpose_vectors _ _) _).
    assert (M : forall E p, mean c (fun s => [(s, 1)]) (mu E) p = weighted c (mu E) p / Rsum (map snd c)).
    { intros E q. unfold mean, weighted. f_equal. f_equal. apply map_ext. intros [s x]. cbn. lra. }
    apply mu_vectors_ext, M.
  - intros s x I. destruct (H s x I) as (Hx & Hs & [a [e [He [Ha Ha0]]]] & _). split; [lra|]. split; [|discriminate].
    destruct fuel as [|fuel']; [discriminate Hc|]. rewrite comp_S.
    rewrite (symbol_formula tostr depth es _ Hreg s e a Hd Hs He Ha Ha0). reflexivity.
  - apply Rsum_pos; [discriminate|]. apply Forall_forall. intros x I. apply in_map_iff in I. destruct I as [[s y] [<- I]]. exact (proj1 (H s y I)).
  - intros E' s w s' x' IE I [Z|[]]. injection Z as <- <-. exact (proj2 (proj2 (proj2 (H s w I))) E' IE).
Qed.

(** hypotheses met: two elements with coefficients, 3 parts of "Fe" with 1 part of "O" at 2 keV *)
Definition C35_element (name : string) (z : Z) (a : R) (co : list R) : @element RNum :=
  let e := match @element_new RNum name z with Ok e => e | _ => element_default end in
  with_info (fst (setMassAttenuationCoefficients e [1; 4] [1; 1] co [1; 2] [])) name name z (Some a) 1 (-1)%Z (-1)%Z.
Definition C35_history : list (@es_op RNum) := [RAdd (C35_element "O" 8 16 [3; 5]); RAdd (C35_element "Fe" 26 56 [2; 7])].
Lemma C35_tables name z a co : (length co = 2)%nat -> (0 < z)%Z ->
  exists t, Element.getMassAttenuationCoefficients (C35_element name z a co) 2 = Ok t.
Proof.
  intros Hl Hz. unfold C35_element. unfold element_new. destruct (Z.ltb_spec z 1); [lia|].
  match goal with |- exists t, getMassAttenuationCoefficients (with_info (fst ?x) _ _ _ _ _ _ _) 2 = Ok t =>
    assert (S : x = (fst x, Ok tt)); [|change (exists t, getMassAttenuationCoefficients (fst x) 2 = Ok t)] end.
  { unfold setMassAttenuationCoefficients.
    destruct co as [|c0 [|c1 [|c2 co]]]; try discriminate. cbn [length Nat.eqb negb Nat.ltb Nat.leb andb].
    rewrite asc2 by lra. reflexivity. }
  refine (mu_defined _ _ [1; 4] [1; 1] co [1; 2] [] 2 _ (spaced2 1 4 ltac:(lra)) (le_n 2) S). repeat constructor.
Qed.
Lemma C35_symbols : symbol "O" /\ symbol "Fe".
Proof.
  split.
  - exists "O"%char, "". split; [reflexivity|split; [reflexivity|intros c []]].
  - exists "F"%char, "e". split; [reflexivity|split; [reflexivity|intros c [<-|[]]; reflexivity]].
Qed.
Example C35_nonvacuous (tostr : R -> string) (lf : bool) :
  let es := es_run tostr 1 1 lf elements_empty C35_history in
  exists tO tFe : tbl,
    Element.getMassAttenuationCoefficients (C35_element "O" 8 16 [3; 5]) 2 = Ok tO /\
    Element.getMassAttenuationCoefficients (C35_element "Fe" 26 56 [2; 7]) 2 = Ok tFe /\
    exists t, getMu_map tostr 1 1 es [("Fe", 3); ("O", 1)] 2 0 = Ok t /\
      value_or_0 "compton" t = (3 * value_or_0 "compton" tFe + value_or_0 "compton" tO) / 4.
Proof.
  intros es. destruct (C35_tables "O" 8 16 [3; 5] eq_refl ltac:(lia)) as [tO HO].
  destruct (C35_tables "Fe" 26 56 [2; 7] eq_refl ltac:(lia)) as [tFe HF]. exists tO, tFe. split; [exact HO|]. split; [exact HF|].
  pose proof (run_reg tostr 1 1 lf C35_history _ _ empty_reg) as Hreg. destruct C35_symbols as [SO SF].
  assert (CO : Elements.getComposition tostr 1 1 es "O" = Ok [("O", 1)]).
  { rewrite comp_S. unfold es. refine (eq_trans (f_equal (fun z => rbind z _) (symbol_formula tostr 1 _ _ Hreg "O" (C35_element "O" 8 16 [3; 5]) 16 (le_n 1) SO eq_refl eq_refl ltac:(lra))) _). reflexivity. }
  assert (CF : Elements.getComposition tostr 1 1 es "Fe" = Ok [("Fe", 1)]).
  { rewrite comp_S. unfold es. refine (eq_trans (f_equal (fun z => rbind z _) (symbol_formula tostr 1 _ _ Hreg "Fe" (C35_element "Fe" 26 56 [2; 7]) 56 (le_n 1) SF eq_refl eq_refl ltac:(lra))) _). reflexivity. }
  destruct (C35_mixture tostr 1 1 lf C35_history [("Fe", 3); ("O", 1)] [2] (fun s => [(s, 1)]) (fun _ s => if String.eqb s "O" then tO else tFe)) as [_ H].
  - intros k w [Z|[Z|[]]]; injection Z as <- <-; (split; [lra|split; [assumption|discriminate]]).
  - cbn. lra.
  - intros E k w s x [<-|[]] [Z|[Z|[]]]; injection Z as <- <-; intros [Z|[]]; injection Z as <- <-.
    + exists (C35_element "Fe" 26 56 [2; 7]). split; [reflexivity|exact HF].
    + exists (C35_element "O" 8 16 [3; 5]). split; [reflexivity|exact HO].
  - eexists. split; [exact (H 2 (or_introl eq_refl))|]. unfold value_or_0 at 1. cbn. unfold mean, weighted. cbn. 
    unfold value_or_0. field.
Qed.

(** ** C36 Peak families are sorted and excitable *)
(** After every history, for every list of registered names: the answer is sorted by binding energy
    and consists of the excitable families of these elements, all of them and nothing else. [sortf]
    is std::sort, used through its contract; binding energies are maps. *)
Theorem C36_families (tostr : R -> string) (depth fuel : nat) (lf : bool) (ops : list es_op) (sortf : tbl -> tbl)
    (names : list string) (energy : R) (out : tbl) :
  let es := es_run tostr depth fuel lf elements_empty ops in
  std_sort_contract (fun a b => Rltb (snd a) (snd b)) sortf ->
  (forall n e, In n names -> registered lf ops n = Some e -> is_map (getBindingEnergies e)) ->
  getPeakFamilies sortf es names energy = Ok out ->
  StronglySorted (fun a b => snd a <= snd b) out /\
  forall f, In f out <-> exists n e, In n names /\ n <> "" /\ registered lf ops n = Some e /\ family n e energy f.
Proof.
  intros es Hs Hb H. pose proof (run_reg tostr depth fuel lf ops _ _ empty_reg) as Hreg. fold es in Hreg.
  assert (G : forall n e, getElement es n = Ok e <-> n <> "" /\ registered lf ops n = Some e).
  { intros n e. rewrite (proj1 (getElement_registered es _ n Hreg)). change (fold_left _ ops _ n) with (registered lf ops n).
    destruct (String.eqb_spec n "") as [->|Q]; [split; [discriminate|intros [Z _]; congruence]|].
    destruct (registered lf ops n) as [e'|]; split; [intros Z; apply Ok_inj in Z; subst; auto|intros [_ Z]; apply some_inj in Z; now subst|discriminate|intros [_ Z]; discriminate]. }
  destruct (peaks_spec sortf es names energy out Hs) as [A B]; [|exact H|].
  - intros n e I Z. apply G in Z. apply (Hb n e I), Z.
  - split; [exact A|]. intros f. rewrite B. split; intros (n & e & I & K); exists n, e; rewrite G in *; tauto.
Qed.
(** The call succeeds if the elements are registered and have a shell for each excited K, L or M
    binding energy; an unknown name is refused. *)
Theorem C36_succeeds (tostr : R -> string) (depth fuel : nat) (lf : bool) (ops : list es_op) (sortf : tbl -> tbl) (names : list string) (energy : R) :
  let es := es_run tostr depth fuel lf elements_empty ops in
  (forall n, In n names -> n <> "" /\ exists e, registered lf ops n = Some e /\ is_map (getBindingEnergies e) /\
     forall s b, In (s, b) (getBindingEnergies e) -> 0 < b < energy -> (exists x, s = "K" ++ x \/ s = "L" ++ x \/ s = "M" ++ x) ->
       exists c, Element.getShellConstants e s = Ok c) ->
  exists out, getPeakFamilies sortf es names energy = Ok out.
Proof.
  intros es H. pose proof (run_reg tostr depth fuel lf ops _ _ empty_reg) as Hreg. fold es in Hreg.
  apply peaks_succeed. intros n I. destruct (H n I) as [Hn [e [He [Hm Hc]]]]. exists e.
  rewrite (proj1 (getElement_registered es _ n Hreg)). destruct (String.eqb_spec n "") as [Q|_]; [contradiction|].
  change (fold_left _ ops _ n) with (registered lf ops n). rewrite He. split; [reflexivity|]. split; [exact Hm|].
  intros s b Ib Hb K. apply klm_iff in K. exact (Hc s b Ib Hb K).
Qed.
Theorem C36_unknown_name (tostr : R -> string) (depth fuel : nat) (lf : bool) (ops : list es_op) (sortf : tbl -> tbl) (names : list string) (energy : R) (n : string) :
  registered lf ops n = None -> getPeakFamilies sortf (es_run tostr depth fuel lf elements_empty ops) (n :: names) energy = Throw InvalidArgument.
Proof.
  intros Hn. pose proof (run_reg tostr depth fuel lf ops _ _ empty_reg) as Hreg.
  unfold getPeakFamilies. cbn [rfold]. rewrite (proj1 (getElement_registered _ _ n Hreg)). change (fold_left _ ops _ n) with (registered lf ops n).
  rewrite Hn. destruct (String.eqb n ""); reflexivity.
Qed.
(** By name: the families of the elements of its composition; a name without composition is refused. *)
Theorem C36_by_name (tostr : R -> string) (depth fuel : nat) (es : elements) (sortf : tbl -> tbl) (name : string) (energy : R) (c : tbl) :
  Elements.getComposition tostr depth fuel es name = Ok c ->
  getPeakFamilies_name tostr depth sortf fuel es name energy =
    if Nat.eqb (length c) 0 then Throw InvalidArgument else getPeakFamilies sortf es (map fst c) energy.
Proof. intros H. unfold getPeakFamilies_name. rewrite H. destruct c; reflexivity. Qed.

(** hypotheses met: K and L shells of Fe and Cu, one L family without yield *)
Definition C36_element (N : Num) (name : string) (z : Z) (k l1 l2 : num) (yk y1 y2 : num) : @element N :=
  let e := match @element_new N name z with Ok e => e | _ => element_default end in
  let e := fst (setBindingEnergies e [("K", k); ("L1", l1); ("L2", l2)]) in
  let e := fst (setShellConstants e "K" [("omega", yk)]) in
  let e := fst (setShellConstants e "L1" [("omega", y1)]) in
  fst (setShellConstants e "L2" [("omega", y2)]).
Definition C36_history : list (@es_op QNum) :=
  [RAdd (C36_element QNum "Cu" 29 (9 # 1)%Q (11 # 10)%Q (1 # 1)%Q (44 # 100)%Q (1 # 1000)%Q (1 # 100)%Q);
   RAdd (C36_element QNum "Fe" 26 (7 # 1)%Q (8 # 10)%Q (7 # 10)%Q (35 # 100)%Q 0%Q (1 # 200)%Q)].
Example C36_nonvacuous :
  getPeakFamilies (isort (fun a b => nltb (snd a) (snd b))) (es_run g6 10 10 false elements_empty C36_history) ["Fe"; "Cu"] (8 # 1)%Q =
  Ok [("Fe L2", (7 # 10)%Q); ("Cu L2", 1%Q); ("Cu L1", (11 # 10)%Q); ("Fe K", (7 # 1)%Q)].
Proof. vmrefl. Qed.
Example C36_sort_exists : std_sort_contract (fun a b : string * R => Rltb (snd a) (snd b)) (isort (fun a b => Rltb (snd a) (snd b))).
Proof. apply isort_contract. Qed.
Example C36_maps : is_map (getBindingEnergies (C36_element RNum "Fe" 26 7 1 (1 / 2) (1 / 3) 0 (1 / 200))).
Proof. repeat constructor. Qed.

Print Assumptions C35_mixture.
Print Assumptions C35_only_ratios.
Print Assumptions C35_rejected.
Print Assumptions C35_as_given.
Print Assumptions C35_by_name.
Print Assumptions C35_by_name_vector.
Print Assumptions C36_families.
Print Assumptions C36_succeeds.
Print Assumptions C36_unknown_name.
Print Assumptions C36_by_name.
