(** C44 (examples on files), C48: EPDL97 tables. *)
From Coq Require Import Ascii String List ZArith QArith Reals Bool Arith Lia Lra.
From Verif Require Import Base.Num Base.Res Base.SMap Base.Str Base.Text Base.ListLemmas Base.RSum Model.Specfile Model.EPDL97 Spec.EPDL97Spec
  Proofs.MathProofs Proofs.EPDL97Proofs Proofs.EPDL97Proofs2 Proofs.EPDL97Proofs3 Proofs.EPDL97Proofs4 Proofs.EPDL97Proofs5.
Import ListNotations.
Set Implicit Arguments.
Local Close Scope Q_scope.
Local Open Scope string_scope.

(** *** Loading from files, with exact rationals for the numbers *)
Definition nl : string := String (ascii_of_nat 10) "".
Definition digits (t : text) : Q := inject_Z (fold_left (fun z c => (10 * z + Z.of_nat (nat_of_ascii c) - 48)%Z) t 0%Z).
Definition binding_file : string :=
  "#S 1 binding" ++ nl ++ "#N 10" ++ nl ++ "#L Z  K(eV)  L1(eV)  L2(eV)  L3(eV)  M1(eV)  M2(eV)  M3(eV)  M4(eV)  M5(eV)" ++ nl ++
  String.concat "" (map (fun _ => "1 2 1 1 1 0 0 0 0 0" ++ nl) (seq 0 99)).
Definition cross_file (other : string) : string :=
  String.concat "" (map (fun _ =>
  "#S 1 element" ++ nl ++ "#L energy  compton  coherent  photoelectric  total  K  L1  L2  L3  M1  M2  M3  M4  M5  " ++ other ++ nl ++
  "1 1 1 7 9 0 3 1 1 0 0 0 0 0 1" ++ nl ++ "3 1 1 30 32 20 4 2 2 0 0 0 0 0 1" ++ nl ++ nl) (seq 0 99)).
Definition files (other : string) (name : string) : option text :=
  if String.eqb name "d//EADL97_BindingEnergies.dat" then Some (list_ascii_of_string binding_file)
  else if String.eqb name "d//EPDL97_CrossSections.dat" then Some (list_ascii_of_string (cross_file other)) else None.
Definition loaded (other : string) : @epdl QNum * res unit := @setDataDirectory QNum digits (files other) "d" epdl_new.

Definition lookup (r : nat * res (list (string * Q))) (k : string) : option Q := match r with (_, Ok t) => mfind sltb k t | _ => None end.
(** a data directory that loads; iron at 10: K 20/30, L1 4/30, L2 and L3 2/30, others 2/30 *)
Example C44_loaded : snd (loaded "allother") = Ok tt /\
  map (lookup (@getPhotoelectricWeights QNum 5 (fst (loaded "allother")) 26 (inject_Z 10))) (shells ++ ["mu photoelectric"]) =
  map Some [(2 # 3)%Q; (2 # 15)%Q; (1 # 15)%Q; (1 # 15)%Q; 0%Q; 0%Q; 0%Q; 0%Q; 0%Q; (1 # 15)%Q; 30%Q].
Proof. split; vm_compute; reflexivity. Qed.
(** A directory whose cross sections do not load (here for a missing column) is reported; but the
    object then takes itself for initialised and the next query reads outside the tables, instead of
    throwing as before any loading. *)
Theorem C44_failed_load_refuted :
  snd (loaded "other") = Throw IosFailure /\
  (forall (z : Z) (x : num) (last : nat), snd (@getMassAttenuationCoefficients QNum last epdl_new z x) = Throw RuntimeError) /\
  (forall (z : Z) (x : num) (last : nat), (1 <= z)%Z -> snd (@getMassAttenuationCoefficients QNum last (fst (loaded "other")) z x) = UB).
Proof.
  split; [vm_compute; reflexivity|]. split; [reflexivity|].
  intros z x last Z1. set (ep := fst (loaded "other")).
  assert (E1 : ep_init ep = true) by (vm_compute; reflexivity). assert (E2 : ep_energy ep = []) by (vm_compute; reflexivity). clearbody ep.
  unfold getMassAttenuationCoefficients. rewrite E1. cbn [negb]. destruct (Z.ltb_spec z 1); [lia|].
  assert (R : zRow ep z = (-1)%Z). { unfold zRow. rewrite E2. cbn [length]. rewrite Z.gtb_ltb. destruct (Z.ltb_spec (Z.of_nat 0 - 1) (z - 1)); lia. }
  rewrite R. reflexivity.
Qed.
Print Assumptions C44_failed_load_refuted.

(** *** C48 *)
Local Open Scope R_scope.
Local Existing Instance RNum.
(** sum of the columns of a row that belong to [keys] *)
Definition columns_sum (index : list (string * Z)) (rows : list (list R)) (i : nat) (keys : list string) : R :=
  Rsum (map (fun kv : string * Z => if in_dec string_dec (fst kv) keys then entry rows i (snd kv) else 0) index).

Lemma column_ok index g rows key idx : table_ok index g rows -> In (key, idx) index ->
  @column RNum rows idx (length g) = Ok (map (fun i => entry rows i idx) (seq 0 (length g))).
Proof. intros T K. unfold column. apply rmapM_Ok. intros i Hi. apply in_seq in Hi. apply (@cell_ok index g rows i idx key T K). lia. Qed.
Lemma vadd_map {A} (f h : A -> R) l : @vadd RNum (map f l) (map h l) = map (fun i => f i + h i) l.
Proof. induction l as [|a l IH]; [reflexivity|]. cbn. f_equal. exact IH. Qed.

Lemma tables_fold index0 g rows : table_ok index0 g rows -> forall index, incl index index0 -> NoDup (map fst index) ->
  forall result (f h : nat -> R), msorted sltb result ->
  exists result', rfold (@tableStep RNum rows (length g)) index (result, map f (seq 0 (length g)), map h (seq 0 (length g))) =
    Ok (result', map (fun i => f i + columns_sum index rows i shells) (seq 0 (length g)),
                 map (fun i => h i + columns_sum index rows i ["coherent"; "compton"; "pair"]) (seq 0 (length g))) /\ msorted sltb result' /\
    (forall key idx, In (key, idx) index -> key <> "total" -> key <> "photoelectric" -> mfind sltb key result' = Some (map (fun i => entry rows i idx) (seq 0 (length g)))) /\
    (forall q, ~ In q (map fst index) -> mfind sltb q result' = mfind sltb q result).
Proof.
  intros T. induction index as [|[key idx] index IH]; intros I N result f h S.
  - exists result. cbn [rfold]. split; [|split; [exact S|split; [intros ? ? []|reflexivity]]]. unfold columns_sum. cbn [map Rsum fold_right].
    f_equal. f_equal; [f_equal|]; apply map_ext; intros; cbn; ring.
  - inversion N as [|? ? N1 N2]; subst. assert (K : In (key, idx) index0) by (apply I; left; reflexivity).
    assert (I' : incl index index0) by (intros z Hz; apply I; right; exact Hz).
    cbn [rfold]. unfold tableStep at 1.
    assert (CS : forall keys i, columns_sum ((key, idx) :: index) rows i keys = (if in_dec string_dec key keys then entry rows i idx else 0) + columns_sum index rows i keys) by reflexivity.
    destruct (String.eqb_spec key "total") as [->|NT]; [|destruct (String.eqb_spec key "photoelectric") as [->|NP]]; cbn [orb].
    {  cbn [rbind]. destruct (IH I' N2 result f h S) as (r & E & Sr & A & B). exists r. toR. rewrite E. split.
      - f_equal. f_equal; [f_equal|]; apply map_ext; intros i; rewrite CS; (destruct (in_dec _ _ _) as [J|J]; [cbn in J; intuition discriminate|ring]).
      - split; [exact Sr|]. split; [intros k' i' [Q|Q]; [injection Q as <- <-; intros; congruence|exact (A k' i' Q)]|intros q Q; apply B; intros C; apply Q; right; exact C]. }
    {  cbn [rbind]. destruct (IH I' N2 result f h S) as (r & E & Sr & A & B). exists r. toR. rewrite E. split.
      - f_equal. f_equal; [f_equal|]; apply map_ext; intros i; rewrite CS; (destruct (in_dec _ _ _) as [J|J]; [cbn in J; intuition discriminate|ring]).
      - split; [exact Sr|]. split; [intros k' i' [Q|Q]; [injection Q as <- <-; intros; congruence|exact (A k' i' Q)]|intros q Q; apply B; intros C; apply Q; right; exact C]. }
    toR. rewrite (@column_ok index0 g rows key idx T K). cbn [rbind].
    set (v := map (fun i => entry rows i idx) (seq 0 (length g))). set (result1 := mset sltb key v result).
    assert (S1 : msorted sltb result1) by (apply smset_sorted, S).
    assert (V1 : mfind sltb key result1 = Some v) by apply smfind_mset_same.
    assert (V2 : forall q, q <> key -> mfind sltb q result1 = mfind sltb q result) by (intros q Q; apply smfind_mset_other; auto).
    assert (FIN : forall f' h', (forall i, f' i = f i + if in_dec string_dec key shells then entry rows i idx else 0) ->
       (forall i, h' i = h i + if in_dec string_dec key ["coherent"; "compton"; "pair"] then entry rows i idx else 0) ->
       exists result', rfold (@tableStep RNum rows (length g)) index (result1, map f' (seq 0 (length g)), map h' (seq 0 (length g))) =
        Ok (result', map (fun i => f i + columns_sum ((key, idx) :: index) rows i shells) (seq 0 (length g)),
                 map (fun i => h i + columns_sum ((key, idx) :: index) rows i ["coherent"; "compton"; "pair"]) (seq 0 (length g))) /\ msorted sltb result' /\
        (forall key0 idx0, In (key0, idx0) ((key, idx) :: index) -> key0 <> "total" -> key0 <> "photoelectric" -> mfind sltb key0 result' = Some (map (fun i => entry rows i idx0) (seq 0 (length g)))) /\
        (forall q, ~ In q (map fst ((key, idx) :: index)) -> mfind sltb q result' = mfind sltb q result)).
    { intros f' h' Hf Hh. destruct (IH I' N2 result1 f' h' S1) as (r & E & Sr & A & B). exists r. toR. rewrite E. split.
      - f_equal. f_equal; [f_equal|]; apply map_ext; intros i; rewrite CS; [rewrite Hf|rewrite Hh]; ring.
      - split; [exact Sr|]. split.
        + intros k' i' [Q|Q]; [|exact (A k' i' Q)]. injection Q as <- <-. intros _ _. rewrite B by exact N1. exact V1.
        + intros q Q. rewrite B by (intros C; apply Q; right; exact C). apply V2. intros ->. apply Q. left. reflexivity. }
    destruct (String.eqb key "coherent" || String.eqb key "compton" || String.eqb key "pair")%bool eqn:SC.
    + cbn [rbind]. unfold v at 1. rewrite vadd_map. assert (J1 : In key ["coherent"; "compton"; "pair"]).
      { apply orb_prop in SC. destruct SC as [SC|SC]; [apply orb_prop in SC; destruct SC as [SC|SC]|]; apply String.eqb_eq in SC; subst; cbn; auto. }
      apply (FIN f (fun i => h i + entry rows i idx)); intros i.
      * destruct (in_dec string_dec key shells) as [J|J]; [exfalso|ring]. clear - J J1. cbn in J1. repeat (destruct J1 as [<-|J1]; [cbn in J; intuition discriminate|]). destruct J1.
      * cbv beta. destruct (in_dec string_dec key ["coherent"; "compton"; "pair"]); [reflexivity|contradiction].
    + assert (J1 : ~ In key ["coherent"; "compton"; "pair"]).
      { intros J1. cbn in J1. repeat (destruct J1 as [<-|J1]; [discriminate|]). destruct J1. }
      change shellKeys with shells. destruct (existsb (String.eqb key) shells) eqn:SH; cbn [rbind].
      * unfold v at 1. rewrite vadd_map. apply existsb_exists in SH. destruct SH as (k' & J & Q). apply String.eqb_eq in Q. subst k'.
        apply (FIN (fun i => f i + entry rows i idx) h); intros i; cbv beta.
        -- destruct (in_dec string_dec key shells) as [_|n]; [reflexivity|exfalso; exact (n J)].
        -- destruct (in_dec string_dec key ["coherent"; "compton"; "pair"]) as [n|_]; [exfalso; exact (J1 n)|ring].
      * assert (J : ~ In key shells). { intros J. assert (existsb (String.eqb key) shells = true) by (apply existsb_exists; exists key; split; [exact J|apply String.eqb_refl]). congruence. }
        apply (FIN f h); intros i.
        -- destruct (in_dec string_dec key shells) as [n|_]; [exfalso; exact (J n)|ring].
        -- destruct (in_dec string_dec key ["coherent"; "compton"; "pair"]) as [n|_]; [exfalso; exact (J1 n)|ring].
Qed.
Lemma map_const {A} (c : R) (l : list A) : map (fun _ => c) l = repeat c (length l).
Proof. induction l as [|a l IH]; [reflexivity|]. cbn. f_equal. exact IH. Qed.

(** The tables of an element: each column is the loaded one, photoelectric is row by row the sum of
    the columns of the shells, and total the sum of photoelectric, coherent, compton and pair. *)
Theorem C48_tables (ep : epdl) (z : Z) (g : list R) rows b :
  data_of ep z g rows b -> table_ok (ep_index ep) g rows -> msorted sltb (ep_index ep) ->
  exists t, getMassAttenuationTables ep z = Ok t /\
    mfind sltb "photoelectric" t = Some (map (fun i => columns_sum (ep_index ep) rows i shells) (seq 0 (length g))) /\
    mfind sltb "total" t = Some (map (fun i => columns_sum (ep_index ep) rows i (shells ++ ["coherent"; "compton"; "pair"])) (seq 0 (length g))) /\
    (forall key idx, In (key, idx) (ep_index ep) -> key <> "total" -> key <> "photoelectric" ->
       mfind sltb key t = Some (map (fun i => entry rows i idx) (seq 0 (length g)))) /\
    (~ In "pair" (map fst (ep_index ep)) -> mfind sltb "pair" t = Some (repeat 0 (length g))).
Proof.
  intros D T S. pose proof (zRow_data D) as (A & B & _). destruct D as (I & Z1 & _).
  unfold getMassAttenuationTables. rewrite I. cbn [negb]. destruct (Z.ltb_spec z 1); [lia|]. rewrite B. cbn [rbind]. rewrite A. cbn [rbind].
  destruct (@tables_fold (ep_index ep) g rows T (ep_index ep) (incl_refl _) (smsorted_NoDup S) [] (fun _ => 0) (fun _ => 0) (@smsorted_nil (list R))) as (r & E & Sr & C1 & C2).
  toR. change (@n0 RNum) with 0. rewrite (map_const 0 (seq 0 (length g))), seq_length in E. rewrite E. cbn [rbind]. rewrite vadd_map.
  set (r1 := if mmem sltb "pair" (ep_index ep) then r else mset sltb "pair" (repeat 0 (length g)) r).
  assert (S1 : msorted sltb r1) by (unfold r1; destruct (mmem _ _ _); [exact Sr|apply smset_sorted, Sr]).
  eexists. split; [reflexivity|]. split; [|split; [|split]].
  - rewrite smfind_mset_other by (try discriminate; apply smset_sorted, S1). rewrite smfind_mset_same. f_equal. apply map_ext. intros i. ring.
  - rewrite smfind_mset_same. f_equal. apply map_ext. intros i. unfold columns_sum. rewrite !Rplus_0_l, <- Rsum_plus. apply Rsum_ext. intros [key idx] K. cbn [fst snd].
    destruct (in_dec string_dec key shells) as [J1|J1]; destruct (in_dec string_dec key ["coherent"; "compton"; "pair"]) as [J2|J2]; destruct (in_dec string_dec key (shells ++ ["coherent"; "compton"; "pair"])) as [J3|J3]; try ring.
    1,2: exfalso; clear - J1 J2; cbn in J2; repeat (destruct J2 as [<-|J2]; [cbn in J1; intuition discriminate|]); destruct J2.
    + exfalso. apply J3, in_or_app. auto.
    + exfalso. apply J3, in_or_app. auto.
    + exfalso. apply in_app_or in J3. tauto.
  - intros key idx K N1 N2. rewrite smfind_mset_other by (auto; apply smset_sorted, S1). rewrite smfind_mset_other by auto. unfold r1.
    destruct (mmem sltb "pair" (ep_index ep)) eqn:M; [apply C1; assumption|]. rewrite smfind_mset_other; [apply C1; assumption| |exact Sr].
    intros <-. unfold mmem in M. rewrite (proj2 (smfind_In "pair" idx S) K) in M. discriminate.
  - intros N. rewrite smfind_mset_other by (try discriminate; apply smset_sorted, S1). rewrite smfind_mset_other by (try discriminate; exact S1). unfold r1.
    assert (M : mmem sltb "pair" (ep_index ep) = false). { unfold mmem. rewrite (proj2 (@smfind_None Z "pair" (ep_index ep) S) N). reflexivity. }
    rewrite M. apply smfind_mset_same.
Qed.
Print Assumptions C48_tables.
