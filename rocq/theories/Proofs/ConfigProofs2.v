(** Computations on the configuration; materials and user tables. *)
From Coq Require Import Ascii String List ZArith Bool Arith Lia.
From Verif Require Import Base.Num Base.Res Base.SMap Base.Str Base.Text Base.ListLemmas Model.SimpleIni Model.Beam Model.Material Model.TransmissionTable Model.Layer Model.XRF Model.Multilayer Model.ConfigFile
  Spec.IniSpec Spec.FieldsSpec Spec.ConfigSpec Proofs.IniProofs Proofs.FieldsProofs Properties.IniProps Proofs.ConfigProofs.
Import ListNotations.
Set Implicit Arguments.
Local Open Scope string_scope.

(** *** What a fold over the entries leaves in one variable *)
Lemma fold_last {V A} (step : V -> string * string -> V) (pi : V -> A) (mt : string * string -> bool) (val : A) m : forall v,
  (exists kv, In kv m /\ mt kv = true) -> (forall kv, In kv m -> mt kv = true -> forall v, pi (step v kv) = val) ->
  (forall kv, In kv m -> mt kv = false -> forall v, pi (step v kv) = pi v) -> pi (fold_left step m v) = val.
Proof.
  induction m as [|kv m IH] using rev_ind; intros v (x & I & M) H1 H2; [destruct I|]. rewrite fold_left_app. cbn [fold_left].
  assert (L : In kv (m ++ [kv])) by (apply in_app_iff; right; left; reflexivity).
  destruct (mt kv) eqn:Q; [apply H1; assumption|]. rewrite H2 by assumption. apply IH.
  - exists x. split; [|exact M]. apply in_app_iff in I. destruct I as [I|[->|[]]]; [exact I|congruence].
  - intros kv' I'. apply H1. apply in_app_iff. left. exact I'.
  - intros kv' I'. apply H2. apply in_app_iff. left. exact I'.
Qed.
Lemma fold_same {V A} (step : V -> string * string -> V) (pi : V -> A) m : forall v,
  (forall kv, In kv m -> forall v, pi (step v kv) = pi v) -> pi (fold_left step m v) = pi v.
Proof.
  induction m as [|kv m IH]; intros v H; [reflexivity|]. cbn [fold_left]. rewrite IH; [apply H; left; reflexivity|]. intros kv' I. apply H. right. exact I.
Qed.

(** *** The name in a section *)
Lemma toupper_dot c : toupper c = "."%char -> c = "."%char.
Proof. destruct c as [[] [] [] [] [] [] [] []]; vm_compute; congruence. Qed.
Lemma toupper_not_dot c : c <> "."%char -> toupper c <> "."%char.
Proof. intros H Q. apply H, toupper_dot, Q. Qed.
Lemma letters_dot p : forall a, ~ In "."%char (list_ascii_of_string p) -> same_letters a (p ++ ".") ->
  exists a', a = a' ++ "." /\ same_letters a' p /\ ~ In "."%char (list_ascii_of_string a').
Proof.
  unfold same_letters. induction p as [|c p IH]; intros a D E.
  - destruct a as [|x [|y a]]; cbn in E; [discriminate| |discriminate]. injection E as E. change (toupper ".") with "."%char in E. apply toupper_dot in E. subst x.
    exists "". split; [reflexivity|]. split; [reflexivity|]. intros [].
  - destruct a as [|x a]; [discriminate|]. cbn [smap_chars append] in E. injection E as E1 E2. cbn [list_ascii_of_string In] in D.
    destruct (IH a) as (a' & -> & S & D'); [tauto|exact E2|]. exists (String x a'). split; [reflexivity|]. split; [cbn [smap_chars]; congruence|].
    cbn [list_ascii_of_string In]. intros [Q|Q]; [|contradiction]. subst x. apply D. left. apply toupper_dot. rewrite <- E1. reflexivity.
Qed.
Lemma section_name parent s x : ~ In "."%char (list_ascii_of_string parent) -> named parent s x -> vget (strings "."%char s) 1 = Ok x.
Proof.
  intros D (a & -> & S & B & DX). destruct (@letters_dot parent a D S) as (a' & -> & _ & DA). unfold strings, parseStringAsMultipleValues, chars.
  destruct (bare_list B) as [BN BS]. rewrite !lst_app. cbn [list_ascii_of_string].
  pose proof (@split_join "."%char [list_ascii_of_string a'] (list_ascii_of_string x) ltac:(constructor; [exact DA|constructor]) DX) as P. cbn [app join] in P. rewrite <- app_assoc. cbn [app].
  rewrite P. destruct (list_ascii_of_string x) as [|c r] eqn:EX; [contradiction|]. cbn [map]. rewrite <- EX in *. rewrite (bare_read BN BS). unfold vget. cbn [nth_error of_opt]. unfold str. rewrite string_of_list_ascii_of_string. reflexivity.
Qed.

(** *** Keys *)
Lemma eqb_letters k key K : toUpper key = K -> (String.eqb (toUpper k) K = true <-> same_letters k key).
Proof. intros <-. apply String.eqb_eq. Qed.

Section Frames.
Context {N : Num}.
(** what a computation leaves in place *)
Definition keeps {A} (P : @config N -> @config N -> Prop) (m : X A) : Prop := forall c, P c (fst (m c)).
Variable P : @config N -> @config N -> Prop.
Hypothesis refl : forall c, P c c.
Hypothesis trans : forall a b c, P a b -> P b c -> P a c.
Lemma keeps_ret {A} (a : A) : keeps P (xret a). Proof. intros c. apply refl. Qed.
Lemma keeps_lift {A} (r : res A) : keeps P (xlift r). Proof. intros c. apply refl. Qed.
Lemma keeps_mod f : (forall c, P c (f c)) -> keeps P (xmod f). Proof. intros H c. apply H. Qed.
Lemma keeps_bind {A B} (m : X A) (f : A -> X B) : keeps P m -> (forall a, keeps P (f a)) -> keeps P (xbind m f).
Proof.
  intros Hm Hf c. unfold xbind. specialize (Hm c). destruct (m c) as [c' [a|e| |]]; cbn [fst] in *; try exact Hm. apply (trans Hm). apply Hf.
Qed.
Lemma keeps_fold {A B} (f : B -> A -> X B) l : (forall b a, keeps P (f b a)) -> forall b, keeps P (xfold f l b).
Proof. intros H. induction l as [|a l IH]; intros b; cbn [xfold]; [apply keeps_ret|]. apply keeps_bind; [apply H|exact IH]. Qed.
(** the object may be consulted *)
Lemma keeps_at {A B} (m : X A) (f : A -> X B) c : keeps P m -> (forall a, keeps P (f a)) -> P c (fst (xbind m f c)).
Proof. intros Hm Hf. exact (@keeps_bind _ _ m f Hm Hf c). Qed.
End Frames.

Section Materials.
Context {N : Num}.
Variable readDouble : text -> option num.
Local Notation key K := (fun kv : string * string => String.eqb (toUpper (fst kv)) K).

Lemma in_entry (m : list (string * string)) d s : msorted sltb m -> (forall k, mfind sltb k m = value_of d s k) ->
  (forall k v, In (k, v) m <-> value_of d s k = Some v).
Proof. intros Hs H k v. rewrite <- H. symmetry. apply smfind_In. exact Hs. Qed.
Lemma field_match (m : list (string * string)) d s k K v : msorted sltb m -> (forall k, mfind sltb k m = value_of d s k) -> toUpper k = K -> field_in d s k v ->
  (exists kv, In kv m /\ key K kv = true) /\ (forall kv, In kv m -> key K kv = true -> snd kv = v).
Proof.
  intros Hs H HK (k0 & V & L & U). split.
  - exists (k0, v). split; [apply (@in_entry _ _ _ Hs H), V|]. apply (@eqb_letters k0 k K HK), L.
  - intros [k' v'] I M. cbn [fst snd] in *. apply (@in_entry _ _ _ Hs H) in I. assert (k' = k0) by (apply (U k' v' I), (@eqb_letters k' k K HK), M). subst k'. congruence.
Qed.
Lemma bare_words names : Forall (fun i : text => i <> [] /\ Forall (fun c => ~ space c) i) names ->
  map str (map (fun item => match readWord item with Some w => w | None => [] end) names) = map str names.
Proof.
  intros H. f_equal. induction H as [|i l [A B] _ IH]; [reflexivity|]. cbn [map]. rewrite (bare_read A B). f_equal. exact IH.
Qed.
Lemma materialSection_ok i d s x m v c : holds i d -> named "Materials" s x -> describes_material readDouble d s x m ->
  exists v', materialSection readDouble i v s c = (addMaterial m c, Ok v').
Proof.
  intros HI HN (dens & thick & comps & fracs & comment & names & amounts & fkey & m0 & D1 & D2 & D3 & IF & D4 & U4 & D5 & L1 & B1 & L2 & M0 & M1).
  destruct (entries_sensitive s HI) as [Hs H]. set (t := snd (readSection i s true)) in *.
  destruct (@field_match _ _ _ _ _ _ Hs H (eq_refl : toUpper "Density" = "DENSITY") D1) as [X1 Y1].
  destruct (@field_match _ _ _ _ _ _ Hs H (eq_refl : toUpper "Thickness" = "THICKNESS") D2) as [X2 Y2].
  destruct (@field_match _ _ _ _ _ _ Hs H (eq_refl : toUpper "CompoundList" = "COMPOUNDLIST") D3) as [X3 Y3].
  set (v' := fold_left (materialKey readDouble) t v).
  assert (V1 : v_density v' = Some (single readDouble (nlit (-1) 0) dens)).
  { apply fold_last with (mt := key "DENSITY"); [exact X1| |]; intros kv I M w; unfold materialKey; cbv beta zeta in M |- *.
    - rewrite M. cbn [v_density]. rewrite (Y1 kv I M). reflexivity.
    - rewrite M. destruct (String.eqb _ "THICKNESS"); [reflexivity|]. destruct (String.eqb _ "COMPOUNDLIST"); [reflexivity|]. destruct (String.eqb _ _ || _); reflexivity. }
  assert (V2 : v_thickness v' = Some (single readDouble (nlit (-1) 0) thick)).
  { apply fold_last with (mt := key "THICKNESS"); [exact X2| |]; intros kv I M w; unfold materialKey; cbv beta zeta in M |- *.
    - rewrite M. replace (String.eqb _ "DENSITY") with false; [cbn [v_thickness]; rewrite (Y2 kv I M); reflexivity|]. apply String.eqb_eq in M. rewrite M. reflexivity.
    - rewrite M. destruct (String.eqb _ "DENSITY"); [reflexivity|]. destruct (String.eqb _ "COMPOUNDLIST"); [reflexivity|]. destruct (String.eqb _ _ || _); reflexivity. }
  assert (V3 : v_list v' = strings ","%char comps).
  { apply fold_last with (mt := key "COMPOUNDLIST"); [exact X3| |]; intros kv I M w; unfold materialKey; cbv beta zeta in M |- *.
    - rewrite M. replace (String.eqb _ "DENSITY") with false by (apply String.eqb_eq in M; rewrite M; reflexivity).
      replace (String.eqb _ "THICKNESS") with false by (apply String.eqb_eq in M; rewrite M; reflexivity). cbn [v_list]. rewrite (Y3 kv I M). reflexivity.
    - rewrite M. destruct (String.eqb _ "DENSITY"); [reflexivity|]. destruct (String.eqb _ "THICKNESS"); [reflexivity|]. destruct (String.eqb _ _ || _); reflexivity. }
  assert (V4 : v_fractions v' = doubles readDouble (nlit (-1) 0) fracs).
  { apply fold_last with (mt := fun kv => String.eqb (toUpper (fst kv)) "COMPOUNDFRACTION" || String.eqb (toUpper (fst kv)) "COMPOUNDFRACTIONS").
    - destruct D4 as (k & V & L & _). exists (k, fracs). split; [apply (@in_entry _ _ _ Hs H), V|]. cbn [fst]. apply orb_true_iff.
      destruct IF as [<-|[<-|[]]]; [left; apply (@eqb_letters k "CompoundFraction" _ eq_refl), L|right; apply (@eqb_letters k "CompoundFractions" _ eq_refl), L].
    - intros kv I M w. unfold materialKey. cbv beta zeta in M |- *.
      assert (E : snd kv = fracs).
      { destruct kv as [k' v1]. cbn [fst snd] in *. apply (@in_entry _ _ _ Hs H) in I. apply (U4 k' v1 I). apply orb_true_iff in M.
        destruct M as [M|M]; [left; apply (@eqb_letters k' "CompoundFraction" _ eq_refl), M|right; apply (@eqb_letters k' "CompoundFractions" _ eq_refl), M]. }
      rewrite M, E. assert (Q : toUpper (fst kv) = "COMPOUNDFRACTION" \/ toUpper (fst kv) = "COMPOUNDFRACTIONS") by (apply orb_true_iff in M; rewrite !String.eqb_eq in M; exact M).
      destruct Q as [-> | ->]; reflexivity.
    - intros kv I M w. unfold materialKey. cbv beta zeta in M |- *. rewrite M. destruct (String.eqb _ "DENSITY"); [reflexivity|]. destruct (String.eqb _ "THICKNESS"); [reflexivity|]. destruct (String.eqb _ "COMPOUNDLIST"); reflexivity. }
  assert (V5 : v_comment v' = comment).
  { set (sp := fun kv : string * string => String.eqb (toUpper (fst kv)) "DENSITY" || String.eqb (toUpper (fst kv)) "THICKNESS" || String.eqb (toUpper (fst kv)) "COMPOUNDLIST" ||
       (String.eqb (toUpper (fst kv)) "COMPOUNDFRACTION" || String.eqb (toUpper (fst kv)) "COMPOUNDFRACTIONS")).
    assert (SP : forall kv, sp kv = true <-> exists key, In key material_keys /\ same_letters (fst kv) key).
    { intros [k w]. unfold sp. cbn [fst]. rewrite !orb_true_iff. rewrite (@eqb_letters k "Density" _ eq_refl), (@eqb_letters k "Thickness" _ eq_refl), (@eqb_letters k "CompoundList" _ eq_refl), (@eqb_letters k "CompoundFraction" _ eq_refl), (@eqb_letters k "CompoundFractions" _ eq_refl).
      split; [|intros (q & [<-|[<-|[<-|[<-|[<-|[]]]]]] & Q); tauto]. intros Q. unfold material_keys. cbn [In].
      destruct Q as [[[Q|Q]|Q]|[Q|Q]]; eexists; (split; [|exact Q]); tauto. }
    destruct D5 as (k & V & NS & U). apply fold_last with (mt := fun kv => negb (sp kv)).
    - exists (k, comment). split; [apply (@in_entry _ _ _ Hs H), V|]. apply negb_true_iff. destruct (sp (k, comment)) eqn:Q; [|reflexivity]. exfalso. apply NS. apply SP in Q. exact Q.
    - intros kv I M w. apply negb_true_iff in M. assert (E : snd kv = comment).
      { destruct kv as [k' v1]. cbn [snd]. apply (@in_entry _ _ _ Hs H) in I. destruct (U k' v1 I) as [->|Q]; [congruence|]. exfalso. assert (sp (k', v1) = true) by (apply SP; exact Q). congruence. }
      unfold sp in M. rewrite !orb_false_iff in M. destruct M as [[[M1' M2'] M3'] [M4' M5']]. unfold materialKey. cbv zeta. rewrite M1', M2', M3', M4', M5'. cbn [orb v_comment]. exact E.
    - intros kv I M w. apply negb_false_iff in M. unfold sp in M. unfold materialKey. cbv zeta.
      destruct (String.eqb _ "DENSITY"); [reflexivity|]. destruct (String.eqb _ "THICKNESS"); [reflexivity|]. destruct (String.eqb _ "COMPOUNDLIST"); [reflexivity|]. cbn [orb] in M. rewrite M. reflexivity. }
  exists v'. unfold materialSection. fold t. fold v'. rewrite (@section_name "Materials" s x ltac:(cbn; intuition discriminate) HN).
  rewrite V1, V2, V3, V4, V5. cbn [rbind of_opt].
  unfold single, chars. change (nlit (-1) 0) with (@minus1 N).
  change (match readDouble (list_ascii_of_string dens) with Some w => w | None => minus1 end) with (number readDouble minus1 (list_ascii_of_string dens)).
  change (match readDouble (list_ascii_of_string thick) with Some w => w | None => minus1 end) with (number readDouble minus1 (list_ascii_of_string thick)).
  rewrite M0. cbn [rbind]. unfold doubles, strings, parseStringAsMultipleValues, chars. rewrite (listed_split L1), (listed_split L2), (bare_words B1).
  change (fun i0 : text => match readDouble i0 with Some w => w | None => minus1 end) with (number readDouble minus1). rewrite M1. reflexivity.
Qed.
Definition putMaterials (ms : list (@material N)) (c : config) : config := mkConfig (c_beam c) ms (c_filters c) (c_sample c) (c_attenuators c)
  (c_userFilters c) (c_userAttenuators c) (c_reference c) (c_alphaIn c) (c_alphaOut c) (c_scattering c) (c_detector c).
Lemma subsections_read i d parent secs : parent <> "" -> holds i d -> subsections d parent secs -> getSubsections i parent false = secs.
Proof.
  intros NP (H1 & H2 & H3) (f & F1 & F2). destruct (C41_subsections i parent) as (_ & _ & S). destruct (S NP) as (g & G1 & G2). rewrite G1. unfold getSections. rewrite H2, <- F2.
  apply filter_ext. intros s. specialize (F1 s). specialize (G2 s). unfold under in F1. destruct (f s), (g s); intuition congruence.
Qed.
Theorem readMaterials_ok i d secs names ms c : holds i d -> subsections d "Materials" secs -> Forall2 (named "Materials") secs names ->
  Forall2 (fun sx m => describes_material readDouble d (fst sx) (snd sx) m) (combine secs names) ms ->
  readMaterials readDouble i c = (putMaterials ms c, Ok tt).
Proof.
  intros HI HS HN HM. unfold readMaterials. rewrite (@subsections_read i d "Materials" secs ltac:(discriminate) HI HS).
  unfold xbind at 1, xmod. cbv beta iota.
  assert (G : forall secs names, Forall2 (named "Materials") secs names -> forall ms, Forall2 (fun sx m => describes_material readDouble d (fst sx) (snd sx) m) (combine secs names) ms ->
    forall v c, exists v', xfold (materialSection readDouble i) secs v c = (putMaterials (c_materials c ++ ms)%list c, Ok v')).
  { clear - HI. induction 1 as [|s x secs names Hx _ IH]; intros ms HM v c; inversion HM; subst; cbn [xfold].
    - exists v. unfold xret. rewrite app_nil_r. destruct c; reflexivity.
    - cbn [fst snd] in *. destruct (@materialSection_ok i d s x y v c HI Hx) as [v' E]; [assumption|]. unfold xbind. rewrite E. destruct (IH _ H3 v' (addMaterial y c)) as [v'' E']. exists v''. rewrite E'.
      unfold putMaterials, addMaterial. cbn. rewrite <- app_assoc. reflexivity. }
  destruct (G secs names HN ms HM (mkMvars "" None None [] []) (clearMaterials c)) as [v' E]. unfold xbind. rewrite E. reflexivity.
Qed.
End Materials.

Section User.
Context {N : Num}.
Variable readDouble : text -> option num.
Hypothesis ZERO : nltb (@n0 N) n0 = false.
Local Notation key K := (fun kv : string * string => String.eqb (toUpper (fst kv)) K).
Definition optional (add : @ttable N -> config -> config) (r : option (@ttable N)) (c : config) : config := match r with Some t => add t c | None => c end.
Lemma userSection_ok add parent i d s x r v c : ~ In "."%char (list_ascii_of_string parent) -> holds i d -> named parent s x -> describes_table readDouble d s x r ->
  exists v', userSection readDouble add i v s c = (optional add r c, Ok v').
Proof.
  intros NP HI HN HD. destruct (entries_sensitive s HI) as [Hs H]. set (t := snd (readSection i s true)) in *.
  set (v0 := mkUvars n0 "" (u_energy v) (u_transmission v)). set (v' := fold_left (userKey readDouble) t v0).
  exists v'. unfold userSection. fold t v0 v'. destruct HD as [[U ->]|(use & energy & transmission & comment & E & T & tb & F1 & P1 & F2 & F3 & F4 & L1 & L2 & TB & ->)].
  - assert (V : nltb n0 (u_use v') = false).
    { assert (G : forall m w, (forall kv, In kv m -> In kv t) -> nltb n0 (u_use w) = false -> nltb n0 (u_use (fold_left (userKey readDouble) m w)) = false).
      { induction m as [|[k w1] m IH]; intros w I B; cbn [fold_left]; [exact B|]. apply IH; [intros kv J; apply I; right; exact J|].
        unfold userKey. cbv zeta. cbn [fst snd]. destruct (String.eqb _ "ENERGY"); [exact B|]. destruct (String.eqb _ "TRANSMISSION"); [exact B|]. destruct (String.eqb (toUpper k) "USE") eqn:Q; [|exact B].
        cbn [u_use]. apply (U k w1); [apply (@in_entry _ _ _ Hs H), I; left; reflexivity|apply (@eqb_letters k "use" _ eq_refl), Q]. }
      apply G; [auto|]. cbn [v0 u_use]. exact ZERO. }
    rewrite V. reflexivity.
  - destruct (@field_match _ _ _ _ _ _ Hs H (eq_refl : toUpper "use" = "USE") F1) as [X1 Y1].
    destruct (@field_match _ _ _ _ _ _ Hs H (eq_refl : toUpper "energy" = "ENERGY") F2) as [X2 Y2].
    destruct (@field_match _ _ _ _ _ _ Hs H (eq_refl : toUpper "transmission" = "TRANSMISSION") F3) as [X3 Y3].
    assert (V1 : u_use v' = number readDouble n0 (list_ascii_of_string use)).
    { apply fold_last with (mt := key "USE"); [exact X1| |]; intros kv I M w; unfold userKey; cbv beta zeta in M |- *.
      - replace (String.eqb _ "ENERGY") with false by (apply String.eqb_eq in M; rewrite M; reflexivity).
        replace (String.eqb _ "TRANSMISSION") with false by (apply String.eqb_eq in M; rewrite M; reflexivity). rewrite M. cbn [u_use]. rewrite (Y1 kv I M). reflexivity.
      - rewrite M. destruct (String.eqb _ "ENERGY"); [reflexivity|]. destruct (String.eqb _ "TRANSMISSION"); reflexivity. }
    assert (V2 : u_energy v' = doubles readDouble (nlit (-1) 0) energy).
    { apply fold_last with (mt := key "ENERGY"); [exact X2| |]; intros kv I M w; unfold userKey; cbv beta zeta in M |- *.
      - rewrite M. cbn [u_energy]. rewrite (Y2 kv I M). reflexivity.
      - rewrite M. destruct (String.eqb _ "TRANSMISSION"); [reflexivity|]. destruct (String.eqb _ "USE"); reflexivity. }
    assert (V3 : u_transmission v' = doubles readDouble (nlit (-1) 0) transmission).
    { apply fold_last with (mt := key "TRANSMISSION"); [exact X3| |]; intros kv I M w; unfold userKey; cbv beta zeta in M |- *.
      - replace (String.eqb _ "ENERGY") with false by (apply String.eqb_eq in M; rewrite M; reflexivity). rewrite M. cbn [u_transmission]. rewrite (Y3 kv I M). reflexivity.
      - rewrite M. destruct (String.eqb _ "ENERGY"); [reflexivity|]. destruct (String.eqb _ "USE"); reflexivity. }
    assert (V4 : u_comment v' = comment).
    { set (sp := fun kv : string * string => String.eqb (toUpper (fst kv)) "USE" || String.eqb (toUpper (fst kv)) "ENERGY" || String.eqb (toUpper (fst kv)) "TRANSMISSION").
      assert (SP : forall kv, sp kv = true <-> exists key, In key table_keys /\ same_letters (fst kv) key).
      { intros [k w]. unfold sp. cbn [fst]. rewrite !orb_true_iff. rewrite (@eqb_letters k "use" _ eq_refl), (@eqb_letters k "energy" _ eq_refl), (@eqb_letters k "transmission" _ eq_refl).
        split; [|intros (q & [<-|[<-|[<-|[]]]] & Q); tauto]. intros Q. unfold table_keys. cbn [In].
        destruct Q as [[Q|Q]|Q]; eexists; (split; [|exact Q]); tauto. }
      assert (ST : forall kv, sp kv = true -> forall w, u_comment (userKey readDouble w kv) = u_comment w).
      { intros kv M w. unfold sp in M. unfold userKey. cbv zeta. destruct (String.eqb _ "ENERGY"); [reflexivity|]. destruct (String.eqb _ "TRANSMISSION"); [reflexivity|].
        rewrite !orb_false_r in M. rewrite M. reflexivity. }
      destruct F4 as [(k & V & NS & U)|[-> NO]].
      - apply fold_last with (mt := fun kv => negb (sp kv)).
        + exists (k, comment). split; [apply (@in_entry _ _ _ Hs H), V|]. apply negb_true_iff. destruct (sp (k, comment)) eqn:Q; [|reflexivity]. exfalso. apply NS. apply SP in Q. exact Q.
        + intros kv I M w. apply negb_true_iff in M. assert (EQ : snd kv = comment).
          { destruct kv as [k' v1]. cbn [snd]. apply (@in_entry _ _ _ Hs H) in I. destruct (U k' v1 I) as [->|Q]; [congruence|]. exfalso. assert (sp (k', v1) = true) by (apply SP; exact Q). congruence. }
          unfold sp in M. rewrite !orb_false_iff in M. destruct M as [[M1' M2'] M3']. unfold userKey. cbv zeta. rewrite M1', M2', M3'. cbn [u_comment]. exact EQ.
        + intros kv I M w. apply negb_false_iff in M. apply ST, M.
      - change "" with (u_comment v0). apply fold_same. intros [k w1] I w. apply ST. apply SP. apply (@in_entry _ _ _ Hs H) in I. exact (NO k w1 I). }
    rewrite V1, P1. rewrite (@section_name parent s x NP HN), V2, V3, V4. cbn [rbind]. unfold doubles, chars. rewrite (listed_split L1), (listed_split L2).
    change (nlit (-1) 0) with (@minus1 N). change (fun i0 : text => match readDouble i0 with Some w => w | None => minus1 end) with (number readDouble minus1). rewrite TB. reflexivity.
Qed.
Theorem readUser_ok parent clear add i d secs names rs c : parent <> "" -> ~ In "."%char (list_ascii_of_string parent) ->
  holds i d -> subsections d parent secs -> Forall2 (named parent) secs names ->
  Forall2 (fun sx r => describes_table readDouble d (fst sx) (snd sx) r) (combine secs names) rs ->
  readUser readDouble parent clear add i c = (fold_left (fun c t => add t c) (chosen_tables rs) (clear c), Ok tt).
Proof.
  intros NE NP HI HS HN HM. unfold readUser. rewrite (@subsections_read i d parent secs NE HI HS).
  unfold xbind at 1, xmod. cbv beta iota.
  assert (G : forall secs names, Forall2 (named parent) secs names -> forall rs, Forall2 (fun sx r => describes_table readDouble d (fst sx) (snd sx) r) (combine secs names) rs ->
    forall v c, exists v', xfold (userSection readDouble add i) secs v c = (fold_left (fun c t => add t c) (chosen_tables rs) c, Ok v')).
  { clear - HI NP ZERO. induction 1 as [|s x secs names Hx _ IH]; intros rs HM v c; inversion HM; subst; cbn [xfold].
    - exists v. reflexivity.
    - cbn [fst snd] in *. destruct (@userSection_ok add parent i d s x y v c NP HI Hx) as [v' E]; [assumption|]. unfold xbind. rewrite E. destruct (IH _ H3 v' (optional add y c)) as [v'' E']. exists v''. rewrite E'.
      unfold chosen_tables. cbn [flat_map]. destruct y; reflexivity. }
  destruct (G secs names HN rs HM (mkUvars n0 "" [] []) (clear c)) as [v' E]. unfold xbind. rewrite E. reflexivity.
Qed.
End User.
