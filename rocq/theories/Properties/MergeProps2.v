(** C73: mass attenuation coefficients with absorption edges given for an element of a library. *)
From Coq Require Import Ascii String List ZArith Reals Bool Arith Lia Lra Sorted.
From Verif Require Import Base.Num Base.Res Base.SMap Base.Str Base.Text Model.Shell Model.Specfile Model.EPDL97 Model.Element Model.Elements Model.ElementsFiles
  Spec.ShellSpec Spec.MaterialSpec Spec.ElementSpec Spec.InitSpec Spec.MergeSpec Spec.EdgeSpec Proofs.MathProofs Proofs.ElementProofs Proofs.ElementProofs2 Proofs.ElementProofs3 Proofs.ElementProofs4 Proofs.ElementProofs8 Proofs.ElementsProofs Proofs.InitProofs Proofs.InitProofs4
  Proofs.EPDL97Proofs9 Proofs.MergeProofs Proofs.MergeProofs2 Proofs.MergeProofs3 Proofs.MergeProofs4 Proofs.MergeProofs5 Proofs.MergeProofs6 Proofs.MergeProofs7 Proofs.MergeProofs8 Proofs.MergeProofs9 Proofs.MergeProofs10 Proofs.MergeProofs11 Proofs.MergeProofs12 Proofs.MergeProofs13 Proofs.EdgeProofs Proofs.MergeExample
  Properties.EdgeProps Properties.MergeProps.
Import ListNotations.
Set Implicit Arguments.
Local Open Scope string_scope.
Local Open Scope R_scope.
Local Existing Instance RNum.
Local Ltac toR := change (@num RNum) with R in *.

Lemma binding_val0 (e e1 : @element RNum) s : info_same e e1 -> val0 (el_binding e1) s = binding_of e s.
Proof. intros I. transitivity (binding_of e1 s); [reflexivity|]. apply I. Qed.
Lemma edge_found_same (e e1 : @element RNum) energy photo s x i : info_same e e1 -> (edge_found e1 energy photo s x i <-> edge_found e energy photo s x i).
Proof. intros I. unfold edge_found. rewrite <- (binding_val0 s I). reflexivity. Qed.
Lemma extract_edges (e e1 e2 : @element RNum) energy photo edges : info_same e e1 -> extractEdges_from e1 energy photo = (e2, Ok edges) ->
  is_map edges /\ forall s x z, mfind sltb s edges = Some (x, z) <-> exists i, z = Z.of_nat i /\ edge_found e energy photo s x i.
Proof.
  intros I X.
  assert (NE : energy <> []) by (intros E; rewrite (@C72_refused RNum e1 energy photo) in X; [discriminate|tauto]).
  assert (LE : length photo = length energy).
  { destruct (Nat.eq_dec (length energy) (length photo)) as [E|E]; [auto|]. rewrite (@C72_refused RNum e1 energy photo) in X; [discriminate|tauto]. }
  assert (NB : getBindingEnergies e1 <> []) by (intros E; rewrite (@C72_refused RNum e1 energy photo) in X; [discriminate|tauto]).
  destruct (@C72_edges e1 energy photo NE LE NB) as (e' & ed & X' & _ & _ & M & S). pose proof (eq_trans (eq_sym X') X) as Q. injection Q as _ ->.
  split; [exact M|]. intros s x z. rewrite S. split; intros (i & Z & F); exists i; (split; [exact Z|]); apply (edge_found_same energy photo s x i I); exact F.
Qed.

(** The table of an element after data were given: the energies of the data base below them, all but
    the last, then as many energies as given. Each is the one given, or the binding energy of a shell
    whose edge the data have just before it at a lower energy, or 1e-6 above the one before it. From
    there on the four columns are the ones given. *)
Theorem C73_table : forall (lb lb' : library) name (energy photo coherent compton pairv : list R) e t,
  getElement (lb_es lb) name = Ok e -> getMassAttenuationTables (lb_epdl lb) (el_z e) = Ok t ->
  setMassAttenuationCoefficients lb name energy photo coherent compton pairv = (lb', Ok tt) ->
  exists e' e0 (below : list R) g rest grid, getElement (lb_es lb') name = Ok e' /\ nth_error energy 0 = Some e0 /\
    column_at t "energy" = (below ++ g :: rest)%list /\ Forall (fun x => x < e0) below /\ (below = [] \/ g < e0) /\
    (g < e0 -> forall g', hd_error rest = Some g' -> ~ g' < e0) /\
    length grid = length energy /\ StronglySorted Rle (below ++ grid) /\
    mfind sltb "energy" (getMassAttenuationCoefficients_all e') = Some (below ++ grid)%list /\
    (forall k x y, nth_error energy k = Some x -> nth_error grid k = Some y ->
       y = x \/
       (exists s en p, edge_found e energy photo s en p /\ k = S p /\ en < binding_of e s /\ y = binding_of e s) \/
       (exists b, nth_error (below ++ grid) (length below + k - 1) = Some b /\ (0 < length below + k)%nat /\ y = b + 1 / 1000000)) /\
    forall k v, In (k, v) [("coherent", coherent); ("compton", compton); ("pair", pairv); ("photoelectric", photo)] ->
      exists w, mfind sltb k (getMassAttenuationCoefficients_all e') = Some w /\ length w = length (below ++ grid) /\ skipn (length below) w = firstn (length energy) v.
Proof.
  intros lb lb' name energy photo co cp pr e t G T H. destruct (setMac_parts _ _ _ _ _ _ _ G T H) as (e1 & e' & PT & _ & MG & G').
  destruct (@merge_table e e1 e' t energy photo co cp pr PT MG) as (e0 & e2 & e3 & edges & pre & g & rest & grid & ts & TT & E0 & X & EQ & BEL & GB & NX & LG & GR & RM & CA2 & I3 & B3 & PT' & TE & TV & TS & SAME).
  pose proof (@putTables_info RNum _ _ _ _ _ T PT) as (I1 & _). destruct (@extract_edges e e1 e2 energy photo edges I1 X) as [_ ED].
  destruct (putTables_state _ _ PT') as (_ & ME & MU & _ & _ & _). pose proof (@col_pair e2 TT energy photo co cp pr pre grid ts LG RM TE TV) as CP.
  exists e', e0, pre, g, rest, grid. split; [exact G'|]. split; [exact E0|]. split; [exact EQ|]. split; [exact BEL|]. split; [exact GB|]. split; [exact NX|]. split; [exact LG|].
  split. { pose proof (putTables_rising _ _ PT') as N. rewrite TE in N. apply not_ascending_sorted in N. inversion N; assumption. }
  unfold getMassAttenuationCoefficients_all. split. { rewrite (MU CP "energy") by (cbn; tauto). f_equal. exact TE. }
  split.
  { intros k x y Kx Ky. destruct (GR k x y Kx Ky) as [Q|[(s & en & idx & F & Z & L & Q)|Q]]; [left; exact Q|right; left|right; right; exact Q].
    apply ED in F as (p & -> & F). exists s, en, p. rewrite (binding_val0 s I1) in L, Q. split; [exact F|]. split; [lia|]. auto. }
  intros k v I. destruct (TV k v I) as [L V]. exists (vat TT k).
  assert (KI : In k ["coherent"; "compton"; "energy"; "pair"; "photoelectric"]) by (cbn in I; destruct I as [I|[I|[I|[I|[]]]]]; injection I as <- <-; cbn; tauto).
  split; [exact (MU CP k KI)|]. pose proof (rmapM_nth _ _ RM) as [LT _]. assert (LQ : length (firstn (length pre) (map (fun t => val0 t k) ts)) = length pre) by (rewrite firstn_length, map_length; toR; rewrite LT, app_length; toR; lia).
  rewrite V. toR. split.
  - rewrite !app_length, LQ, firstn_length, LG. toR. lia.
  - rewrite skipn_app, LQ, Nat.sub_diag. cbn [skipn]. rewrite skipn_all2 by (toR; lia). reflexivity.
Qed.
Print Assumptions C73_table.

(** At an energy of the new table from the data on, isolated from its two neighbours, the element
    answers with the coefficients given. A shell gets its share of the photoelectric coefficient given
    when the data have no edge at all or have its edge further down; when they have an edge, but not
    that of the shell, the shell keeps the coefficient of the data base. *)
Theorem C73_answers : forall (lb lb' : library) name (energy photo coherent compton pairv : list R) e t e' column i k a x c mu,
  getElement (lb_es lb) name = Ok e -> getMassAttenuationTables (lb_epdl lb) (el_z e) = Ok t ->
  setMassAttenuationCoefficients lb name energy photo coherent compton pairv = (lb', Ok tt) -> getElement (lb_es lb') name = Ok e' ->
  mfind sltb "energy" (getMassAttenuationCoefficients_all e') = Some column -> (S i + length energy = length column + k)%nat ->
  nth_error column i = Some a -> nth_error column (S i) = Some x -> nth_error column (S (S i)) = Some c ->
  0 < a -> a + 1 / 100000 < x -> x + 1 / 100000 < c ->
  Forall (fun y => 0 <= y) coherent -> Forall (fun y => 0 <= y) compton -> Forall (fun y => 0 <= y) pairv -> 0 < nth k photo 0 ->
  getMassAttenuationCoefficients (el_run false e (takes t)) x = Ok mu -> 0 < value_or_0 "photoelectric" mu -> 0 <= value_or_0 "all other" mu ->
  (forall s en p, edge_found e energy photo s en p -> 0 < value_or_0 s mu -> (p < k)%nat) ->
  exists mu', getMassAttenuationCoefficients e' x = Ok mu' /\
    value_or_0 "coherent" mu' = nth k coherent 0 /\ value_or_0 "compton" mu' = nth k compton 0 /\ value_or_0 "pair" mu' = nth k pairv 0 /\
    (forall s, In s photo_names ->
       ((forall s' en p, ~ edge_found e energy photo s' en p) \/ (exists en p, edge_found e energy photo s en p /\ (p < k)%nat) ->
          value_or_0 s mu' = nth k photo 0 * (value_or_0 s mu / value_or_0 "photoelectric" mu)) /\
       ((exists s' en p, edge_found e energy photo s' en p) -> (forall en p, ~ edge_found e energy photo s en p) -> value_or_0 s mu' = value_or_0 s mu)) /\
    value_or_0 "photoelectric" mu' = photo_sum mu' /\
    ((forall s' en p, ~ edge_found e energy photo s' en p) -> value_or_0 "photoelectric" mu' = nth k photo 0).
Proof.
  intros lb lb' name energy photo co cp pr e t e' column i k a x c mu G T H G' COL LEN A X1 C P G1 G2 NC NK NP PK M1 PTOT NO PST.
  destruct (setMac_parts _ _ _ _ _ _ _ G T H) as (e1 & e'' & PT & RUN & MG & G''). rewrite <- RUN in M1. assert (e'' = e') by (apply Ok_inj; rewrite <- G''; exact G'). subst e''.
  destruct (@merge_table e e1 e' t energy photo co cp pr PT MG) as (e0 & e2 & e3 & edges & pre & g & rest & grid & ts & TT & E0 & X & EQ & BEL & GB & NX & LG & GR & RM & CA2 & I3 & B3 & PT' & TE & TV & TS & _).
  pose proof (@putTables_info RNum _ _ _ _ _ T PT) as (I1 & _). destruct (@extract_edges e e1 e2 energy photo edges I1 X) as [MP ED].
  destruct (putTables_state _ _ PT') as (_ & ME & MU & _ & _ & _). pose proof (@col_pair e2 TT energy photo co cp pr pre grid ts LG RM TE TV) as CP.
  assert (Q : Some column = Some (pre ++ grid)%list). { rewrite <- COL. unfold getMassAttenuationCoefficients_all. refine (eq_trans (MU CP "energy" _) _); [cbn; tauto|]. f_equal. exact TE. }
  injection Q as ->. assert (K : (length pre + k)%nat = S i) by (toR; rewrite app_length, LG in LEN; lia).
  assert (NIL : (forall s' en p, ~ edge_found e energy photo s' en p) -> edges = []).
  { intros N. destruct edges as [|[s' [en z]] ed]; [reflexivity|]. assert (F : mfind sltb s' ((s', (en, z)) :: ed) = Some (en, z)) by (cbn [mfind]; rewrite (@st_irrefl string sltb sltb_total); reflexivity).
    apply ED in F as (p & _ & F). destruct (N _ _ _ F). }
  assert (NONE : forall s, (forall en p, ~ edge_found e energy photo s en p) -> mfind sltb s edges = None).
  { intros s N. destruct (mfind sltb s edges) as [[en' z]|] eqn:W; [|reflexivity]. apply ED in W as (p' & _ & W). destruct (N _ _ W). }
  assert (NOE : mfind sltb "all other" edges = None).
  { apply NONE. intros en p (n & N & _). apply nth_error_In in N. cbn in N. intuition discriminate. }
  assert (PAST : forall s en z, mfind sltb s edges = Some (en, z) -> 0 < value_or_0 s mu -> past edges k s).
  { intros s en z F PM. right. apply ED in F as (p & -> & F). exists en, p. split; [|exact (PST _ _ _ F PM)]. apply ED. exists p. auto. }
  destruct (@answer_at e e1 e' e2 e3 t TT energy photo co cp pr pre grid edges ts PT X LG RM I3 B3 PT' TE TV TS i k a x c mu A X1 C K P G1 G2 M1 PTOT PK NO NOE PAST (conj NC (conj NK NP))) as (mu' & Q & V1 & V2 & V3 & V & S & SE).
  exists mu'. split; [exact Q|]. split; [exact V1|]. split; [exact V2|]. split; [exact V3|]. split; [|split; [exact S|intros N; exact (SE (NIL N))]].
  intros s Hs. destruct (V s Hs) as [Q1 Q2]. split.
  - intros [N|(en & p & F & L)]; apply Q1; [left; exact (NIL N)|right]. exists en, p. split; [|exact L]. apply ED. exists p. auto.
  - intros (s' & en & p & F) N. apply Q2; [|exact (NONE s N)]. intros ->. assert (W : mfind sltb s' (@nil (string * (R * Z))) = Some (en, Z.of_nat p)) by (apply ED; exists p; auto). discriminate.
Qed.
Print Assumptions C73_answers.

Lemma setMac_build (lb : @library RNum) name energy photo co cp pr e e1 e' t : getElement (lb_es lb) name = Ok e -> getMassAttenuationTables (lb_epdl lb) (el_z e) = Ok t ->
  putTables t e = (e1, Ok tt) -> mergeTables e1 t energy photo co cp pr = (e', Ok tt) ->
  exists lb', setMassAttenuationCoefficients lb name energy photo co cp pr = (lb', Ok tt) /\ getElement (lb_es lb') name = Ok e'.
Proof.
  intros G T PT MG. destruct (get_index _ _ G) as (n & F & E). exists (with_list lb (set_nth (es_list (lb_es lb)) n e')). split; [|exact (get_set _ _ e' G F E)].
  unfold setMassAttenuationCoefficients. rewrite F, E, T. unfold seqOk. rewrite PT, MG. reflexivity.
Qed.
Lemma rising_of (l : list R) : StronglySorted Rle l -> rising l.
Proof.
  induction 1 as [|a l _ IH H]; intros [|i] x y X Y; cbn in X, Y; try discriminate; [|exact (IH i x y X Y)]. injection X as <-. rewrite Forall_forall in H. apply H. destruct l; [discriminate|]. injection Y as ->. left. reflexivity.
Qed.
Lemma accepted_merge (e e1 : @element RNum) z ep t (energy photo co cp pr : list R) e0 : getMassAttenuationTables ep z = Ok t -> putTables t e = (e1, Ok tt) -> StronglySorted Rle energy -> nth_error energy 0 = Some e0 -> 0 < e0 ->
  (forall s x i, edge_found e energy photo s x i -> binding_of e s <= x) ->
  length photo = length energy -> (length energy <= length co)%nat -> (length energy <= length cp)%nat -> (length energy <= length pr)%nat ->
  getBindingEnergies e <> [] -> StronglySorted Rle (0 :: vat t "energy") -> (exists g, In g (vat t "energy") /\ e0 <= g) ->
  (forall x, In x (vat t "energy") /\ x < e0 \/ In x energy -> exists mu, getMassAttenuationCoefficients e1 x = Ok mu) ->
  exists e' (pre rest : list R), mergeTables e1 t energy photo co cp pr = (e', Ok tt) /\ vat t "energy" = (pre ++ rest)%list /\ mfind sltb "energy" (el_mu e') = Some (pre ++ energy)%list.
Proof.
  intros T PT SE E0 P0 EB LF LC LK LP BD RS UP ANS. pose proof (@putTables_info RNum _ _ _ _ _ T PT) as (I1 & _).
  assert (B1 : getBindingEnergies e1 <> []).
  { destruct (putTables_state _ _ PT) as (_ & _ & _ & _ & BI & _). intros Z. unfold getBindingEnergies in *. destruct (el_binding e) as [|[q b] r] eqn:B; [contradiction|]. specialize (BI q b). cbn [mfind] in BI. rewrite (@st_irrefl _ _ sltb_total q) in BI. specialize (BI eq_refl). rewrite Z in BI. discriminate. }
  assert (NE : energy <> []) by (intros ->; discriminate).
  destruct (@C72_edges e1 energy photo NE LF B1) as (e2 & edges & X & _). destruct (@extract_edges e e1 e2 energy photo edges I1 X) as [_ ED].
  assert (EB' : forall s en idx, mfind sltb s edges = Some (en, idx) -> val0 (el_binding e1) s <= en).
  { intros s en idx W. apply ED in W as (p & _ & W). apply Rle_trans with (binding_of e s); [right; exact (binding_val0 s I1)|exact (EB _ _ _ W)]. }
  destruct (@merge_accept_edges e e1 e2 t energy photo co cp pr e0 edges PT (rising_of SE) E0 X EB' LF LC LK LP P0 (rising_of RS) UP ANS) as [e' MG].
  destruct (@merge_table e e1 e' t energy photo co cp pr PT MG) as (e0' & e2' & e3 & edges' & pre & g & rest & grid & ts & TT & E0' & X' & EQ & BEL & GB & NX & LG & GR & RM & CA2 & I3 & B3 & PT' & TE & TV & TS & SAME).
  assert (Q : edges' = edges) by (pose proof (eq_trans (eq_sym X) X') as Q; injection Q; auto). subst edges'.
  destruct (putTables_state _ _ PT') as (_ & ME & MU & _ & _ & _). pose proof (@col_pair e2' TT energy photo co cp pr pre grid ts LG RM TE TV) as CP.
  exists e', pre, (g :: rest). split; [exact MG|]. split; [exact EQ|]. refine (eq_trans (MU CP "energy" _) _); [cbn; tauto|]. rewrite (SAME EB' (rising_of SE)) in TE. f_equal. exact TE.
Qed.
(** Data in rising order whose edges are not below the binding energies are accepted, and taken as they
    are, when the element with the tables of the data base answers at the energies concerned. *)
Theorem C73_accepted : forall (lb : library) name (energy photo coherent compton pairv : list R) e t e0,
  getElement (lb_es lb) name = Ok e -> getMassAttenuationTables (lb_epdl lb) (el_z e) = Ok t -> all_ok false e (takes t) ->
  StronglySorted Rle energy -> nth_error energy 0 = Some e0 -> 0 < e0 ->
  (forall s x i, edge_found e energy photo s x i -> binding_of e s <= x) ->
  length photo = length energy -> (length energy <= length coherent)%nat -> (length energy <= length compton)%nat -> (length energy <= length pairv)%nat ->
  getBindingEnergies e <> [] -> StronglySorted Rle (0 :: column_at t "energy") ->
  (exists g, In g (column_at t "energy") /\ e0 <= g) ->
  (forall x, In x (column_at t "energy") /\ x < e0 \/ In x energy -> exists mu, getMassAttenuationCoefficients (el_run false e (takes t)) x = Ok mu) ->
  exists lb' e' (below rest : list R), setMassAttenuationCoefficients lb name energy photo coherent compton pairv = (lb', Ok tt) /\ getElement (lb_es lb') name = Ok e' /\
    column_at t "energy" = (below ++ rest)%list /\ mfind sltb "energy" (getMassAttenuationCoefficients_all e') = Some (below ++ energy)%list.
Proof.
  intros lb name energy photo co cp pr e t e0 G T OK SE E0 P0 EB LF LC LK LP BD RS UP ANS. pose proof (@putTables_back RNum false t e OK) as PT.
  destruct (@accepted_merge e _ _ _ t energy photo co cp pr e0 T PT SE E0 P0 EB LF LC LK LP BD RS UP ANS) as (e' & pre & rest & MG & EQ & EN).
  destruct (@setMac_build lb name energy photo co cp pr e _ e' t G T PT MG) as (lb' & S & G'). exists lb', e', pre, rest. split; [exact S|]. split; [exact G'|]. split; [exact EQ|exact EN].
Qed.
Print Assumptions C73_accepted.

(** A library and data with a K edge to which all of this applies. The data base divides a photoelectric
    coefficient of 2 evenly between "K" and "all other". Of the 4 given at 20 keV "K" gets 2, but "all
    other" keeps its 1, so that the photoelectric coefficient of the element is 3 and not the 4 given. *)
Definition mx_energy : list R := [1; 1; 20; 30].
Definition mx_photo : list R := [2; 6; 4; 3].
Lemma mx_jump y i : jump mx_energy mx_photo y i <-> y = 1 /\ i = 0%nat.
Proof.
  unfold jump. split.
  - intros (A & B & p & q & C & D & E). destruct i as [|[|[|[|i]]]]; cbn in A, B; try discriminate; injection A as <-; try (exfalso; injection B as B; lra); auto.
  - intros [-> ->]. split; [reflexivity|]. split; [reflexivity|]. exists 2, 6. split; [reflexivity|]. split; [reflexivity|lra].
Qed.
Lemma mx_edge s x i : edge_found mx_element mx_energy mx_photo s x i <-> s = "K" /\ x = 1 /\ i = 0%nat.
Proof.
  split.
  - intros (n & N & (l & ND & L & IN) & [J _] & B & _). apply mx_jump in J as [-> ->]. split; [|auto]. destruct l as [|y l].
    + cbn in L. subst n. cbn in N. congruence.
    + destruct (proj1 (IN y) (or_introl eq_refl)) as (Y & k & J). apply mx_jump in J as [-> _]. lra.
  - intros (-> & -> & ->). exists 0%nat. split; [reflexivity|]. split; [exists []; split; [constructor|]; split; [reflexivity|]; intros y; split; [intros []|]; intros (Y & k & J); apply mx_jump in J as [-> _]; lra|].
    split; [split; [apply mx_jump; auto|intros k J; apply mx_jump in J as [_ ->]; lia]|]. change (binding_of mx_element "K") with (19 / 20). split; [lra|]. rewrite Rabs_pos_eq; lra.
Qed.
Definition mx_other_shell (s : string) : bool := if in_dec String.string_dec s photo_names then negb (String.eqb s "K") else false.
Theorem C73_example : exists lb' e' mu,
  setMassAttenuationCoefficients mx_library "Fe" mx_energy mx_photo [1; 1; 2; 3] [3; 3; 6; 1] [0; 0; 0; 0] = (lb', Ok tt) /\
  getElement (lb_es lb') "Fe" = Ok e' /\ edge_found mx_element mx_energy mx_photo "K" 1 0 /\
  mfind sltb "energy" (getMassAttenuationCoefficients_all e') = Some mx_energy /\ getMassAttenuationCoefficients e' 20 = Ok mu /\
  value_or_0 "K" mu = 2 /\ value_or_0 "all other" mu = 1 /\ value_or_0 "L3" mu = 0 /\ value_or_0 "photoelectric" mu = 3 /\ value_or_0 "coherent" mu = 2 /\ value_or_0 "compton" mu = 6.
Proof.
  destruct mx_taken as [e1 PT]. destruct (putTables_run false _ _ PT) as [OK RUN].
  assert (C0 : column_at mx_table "energy" = mx_grid) by exact (proj1 mx_columns).
  assert (EDK : edge_found mx_element mx_energy mx_photo "K" 1 0) by (apply mx_edge; auto).
  assert (H1 : StronglySorted Rle mx_energy) by (repeat constructor; lra).
  assert (H2 : forall s x i, edge_found mx_element mx_energy mx_photo s x i -> binding_of mx_element s <= x).
  { intros s x i Q. apply mx_edge in Q as (-> & -> & _). change (binding_of mx_element "K") with (19 / 20). lra. }
  assert (H3 : StronglySorted Rle (0 :: column_at mx_table "energy")) by (rewrite C0; repeat constructor; lra).
  assert (H4 : exists g, In g (column_at mx_table "energy") /\ 1 <= g) by (rewrite C0; exists 100; cbn; split; [tauto|lra]).
  assert (H5 : forall x, In x (column_at mx_table "energy") /\ x < 1 \/ In x mx_energy -> exists mu, getMassAttenuationCoefficients (el_run false mx_element (takes mx_table)) x = Ok mu).
  { rewrite C0. change (takes mx_table) with (table_calls mx_table). rewrite <- RUN. intros x X. destruct (@mx_answer e1 x PT) as (mu & A & _); [|exists mu; exact A]. cbn in X. intuition lra. }
  assert (H6 : getBindingEnergies mx_element <> []) by discriminate.
  destruct (@C73_accepted mx_library "Fe" mx_energy mx_photo [1; 1; 2; 3] [3; 3; 6; 1] [0; 0; 0; 0] mx_element mx_table 1 eq_refl mx_table_ok OK H1 eq_refl ltac:(lra) H2 eq_refl ltac:(cbn; lia) ltac:(cbn; lia) ltac:(cbn; lia) H6 H3 H4 H5) as (lb' & e' & below & rest & S & G' & EQ & EN).
  assert (B : below = []).
  { destruct (@C73_table mx_library lb' "Fe" mx_energy mx_photo [1; 1; 2; 3] [3; 3; 6; 1] [0; 0; 0; 0] mx_element mx_table eq_refl mx_table_ok S) as (e2 & e0 & b & g & r & grid & G2 & E0 & EQ2 & BEL & _ & _ & LG & _ & EN2 & _).
    assert (e2 = e') by (apply Ok_inj; rewrite <- G2; exact G'). subst e2. rewrite EN in EN2. injection EN2 as EN2. cbn in E0. injection E0 as <-. rewrite C0 in EQ2. destruct b as [|b0 b]; [|injection EQ2 as <- _; inversion BEL; lra].
    apply (f_equal (@length R)) in EN2. rewrite !app_length, LG in EN2. destruct below; [reflexivity|cbn in EN2; lia]. }
  subst below. cbn [app] in EN.
  destruct (@mx_answer e1 20 PT) as (mu0 & A0 & SH); [lra|].
  assert (P : value_or_0 "photoelectric" mu0 = 2).
  { destruct (putTables_state _ _ PT) as (CA1 & _). pose proof (empty_cache_mu _ _ _ CA1 A0) as CM. apply computeMu_sums in CM as (P & _). rewrite (vSome _ _ _ P). unfold photo_sum. cbn [map photo_names RSum.Rsum].
    rewrite !SH by (cbn; tauto). unfold mx_share. cbn. lra. }
  rewrite RUN in A0. change (table_calls mx_table) with (takes mx_table) in A0.
  assert (NNA : forall l, (forall y, In y l -> 0 <= y) -> Forall (fun y => 0 <= y) l) by (intros l; apply Forall_forall).
  assert (PO : 0 <= value_or_0 "all other" mu0) by (rewrite SH by (cbn; tauto); unfold mx_share; cbn; lra).
  assert (PP : 0 < value_or_0 "photoelectric" mu0) by (rewrite P; lra).
  assert (PST : forall s en p, edge_found mx_element mx_energy mx_photo s en p -> 0 < value_or_0 s mu0 -> (p < 2)%nat) by (intros s en p F _; apply mx_edge in F as (_ & _ & ->); lia).
  destruct (@C73_answers mx_library lb' "Fe" mx_energy mx_photo [1; 1; 2; 3] [3; 3; 6; 1] [0; 0; 0; 0] mx_element mx_table e' mx_energy 1 2 1 20 30 mu0 eq_refl mx_table_ok S G' EN eq_refl eq_refl eq_refl eq_refl
    ltac:(lra) ltac:(lra) ltac:(lra) ltac:(apply NNA; intros y I; cbn in I; intuition lra) ltac:(apply NNA; intros y I; cbn in I; intuition lra) ltac:(apply NNA; intros y I; cbn in I; intuition lra) ltac:(cbn; lra) A0 PP PO PST) as (mu & Q & V1 & V2 & _ & V & SUM & _).
  assert (VK : value_or_0 "K" mu = 2). { rewrite (proj1 (V "K" ltac:(cbn; tauto))) by (right; exists 1, 0%nat; auto). rewrite SH, P by (cbn; tauto). unfold mx_share. cbn. lra. }
  assert (VO : forall s, In s photo_names -> s <> "K" -> value_or_0 s mu = mx_share s).
  { intros s Hs N. rewrite (proj2 (V s Hs)); [apply SH, Hs|exists "K", 1, 0%nat; exact EDK|]. intros en p F. apply mx_edge in F as (F & _). contradiction. }
  exists lb', e', mu. split; [exact S|]. split; [exact G'|]. split; [exact EDK|]. split; [exact EN|]. split; [exact Q|]. split; [exact VK|].
  assert (SHARE : forall s, mx_other_shell s = true -> value_or_0 s mu = mx_share s).
  { intros s B. unfold mx_other_shell in B. destruct (in_dec String.string_dec s photo_names) as [I|]; [|discriminate]. destruct (String.eqb_spec s "K"); [discriminate|]. exact (VO s I n). }
  clear - SHARE VK V1 V2 SUM.
  split; [exact (SHARE "all other" eq_refl)|]. split; [exact (SHARE "L3" eq_refl)|]. split; [|split; [exact V1|exact V2]].
  rewrite SUM. unfold photo_sum. cbn [map photo_names RSum.Rsum]. rewrite VK, !SHARE by reflexivity. unfold mx_share. cbn. lra.
Qed.
Print Assumptions C73_example.
