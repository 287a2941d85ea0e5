(** Reading the sections of a document, and the beam. *)
From Coq Require Import Ascii String List ZArith Bool Arith Lia.
From Verif Require Import Base.Num Base.Res Base.SMap Base.Str Base.Text Base.ListLemmas Model.SimpleIni Model.Beam Model.Material Model.TransmissionTable Model.Layer Model.XRF Model.Multilayer Model.ConfigFile
  Spec.IniSpec Spec.FieldsSpec Spec.ConfigSpec Proofs.IniProofs Proofs.FieldsProofs Properties.IniProps.
Import ListNotations.
Set Implicit Arguments.
Local Open Scope string_scope.

(** the reader holds the document *)
Definition holds (i : ini) (d : document) : Prop :=
  ini_sorted i /\ ini_sections i = sections_of d /\ forall s k, mfind sltb k (section_or_empty i s) = value_of d s k.
Lemma holds_read d : Forall line_ok d -> exists i, readFileName ini_new (Some (document_text d)) = (i, Ok tt) /\ holds i d.
Proof.
  intros Hd. destruct (@C40_read d (document_text d) Hd (or_introl eq_refl)) as (E & H2 & H3).
  exists (fst (readFileName ini_new (Some (document_text d)))). split; [rewrite <- E; apply surjective_pairing|].
  split; [apply readFileName_sorted, new_sorted|]. split; [exact H2|]. intros s k. specialize (H3 s). cbv zeta in H3. rewrite readSection_sensitive in H3. apply H3.
Qed.
Lemma readSection_state i s cs : ini_sorted i -> ini_sections (fst (readSection i s cs)) = ini_sections i /\
  forall s', section_or_empty (fst (readSection i s cs)) s' = section_or_empty i s'.
Proof.
  intros Hs. unfold readSection. destruct (mfind sltb s (ini_contents i)); [split; reflexivity|]. destruct cs; [split; reflexivity|].
  destruct (findSection _ _) as [x|]; [|split; reflexivity]. cbn [fst ini_sections]. split; [reflexivity|]. intros s'.
  unfold section_or_empty at 1. cbn [ini_contents]. destruct (string_dec s' x) as [->|NE].
  - rewrite smfind_mset_same; reflexivity.
  - rewrite smfind_mset_other; [reflexivity|congruence|apply Hs].
Qed.
Lemma holds_after i d s cs : holds i d -> holds (fst (readSection i s cs)) d.
Proof.
  intros (H1 & H2 & H3). destruct (readSection_state s cs H1) as [S1 S2]. split; [apply readSection_sorted, H1|]. split; [congruence|]. intros s' k. rewrite S2. apply H3.
Qed.
Lemma entries_sensitive i d s : holds i d -> msorted sltb (snd (readSection i s true)) /\ forall k, mfind sltb k (snd (readSection i s true)) = value_of d s k.
Proof. intros (H1 & H2 & H3). rewrite readSection_sensitive. split; [apply section_sorted, H1|apply H3]. Qed.
Lemma sections_ext (m m' : list (string * string)) : msorted sltb m -> msorted sltb m' -> (forall k, mfind sltb k m = mfind sltb k m') -> m = m'.
Proof. intros. apply smsorted_ext; assumption. Qed.
Lemma entries_read i d s m : holds i d -> entries d s m -> snd (readSection i s false) = m.
Proof.
  intros (H1 & H2 & H3) (E1 & E2 & E3). pose proof (C41_actual i s) as A. cbv zeta in A.
  assert (Q : section_or_empty i s = m). { apply sections_ext; [apply section_sorted, H1|exact E1|]. intros k. rewrite H3, E2. reflexivity. }
  unfold section_or_empty in Q. destruct (mfind sltb s (ini_contents i)) as [m'|]; [congruence|]. subst m. specialize (E3 eq_refl).
  destruct A as [(a & x & b & A1 & A2 & A3 & A4 & A5)|[_ A]]; [|exact A]. exfalso. unfold getSections in A1. rewrite H2 in A1. rewrite A1 in E3.
  apply Forall_app in E3. destruct E3 as [_ E3]. inversion E3 as [|? ? [Q|Q] _]; subst; contradiction.
Qed.

(** lists *)
Lemma listed_split v items : listed v items -> SimpleIni.split ","%char (list_ascii_of_string v) = items.
Proof.
  intros (-> & H & [->|(l & x & -> & X)]); [reflexivity|]. apply Forall_app in H. destruct H as [H1 H2]. inversion H2; subst.
  rewrite split_join by assumption. destruct x; [contradiction|reflexivity].
Qed.
Lemma list_in_split (m : list (string * string)) d s k items : (forall k, mfind sltb k m = value_of d s k) -> list_in d s k items ->
  SimpleIni.split ","%char (chars (content m k)) = items.
Proof.
  intros H L. unfold content, chars. unfold list_in in L. rewrite H. destruct (value_of d s k) as [v|]; [apply listed_split, L|]. subst items. reflexivity.
Qed.

Section Beam.
Context {N : Num}.
Variable readDouble : text -> option num.
Variable sortf : list (@ray N) -> list ray.

Definition noneg (r : @beam_row N) : Z := if (br_char r <? 0)%Z then 0%Z else br_char r.
Lemma vget_mid {A} (l : list A) a r : vget (l ++ a :: r) (length l) = Ok a.
Proof. induction l as [|b l IH]; [reflexivity|exact IH]. Qed.
Lemma erase_mid {A} (l : list A) a r : erase (length l) (l ++ a :: r) = Ok (l ++ r)%list.
Proof.
  unfold erase. rewrite app_length. cbn [length]. replace (Nat.ltb _ _) with true by (symmetry; apply Nat.ltb_lt; lia).
  rewrite firstn_app, Nat.sub_diag, firstn_all. cbn [firstn]. rewrite app_nil_r. f_equal. f_equal.
  replace (S (length l)) with (length l + 1) by lia. rewrite <- skipn_skipn || idtac. clear. induction l as [|b l IH]; [reflexivity|exact IH].
Qed.
Lemma assign_mid {A} (l : list A) a b r : assign (length l) b (l ++ a :: r) = (l ++ b :: r)%list.
Proof.
  unfold assign. rewrite firstn_app, Nat.sub_diag, firstn_all. cbn [firstn]. rewrite app_nil_r. f_equal. f_equal. clear. induction l as [|c l IH]; [reflexivity|exact IH].
Qed.
Lemma beamLoop_rows (rows : list (@beam_row N)) : forall F E W C,
  beamLoop (length rows) (map (@br_flag N) rows ++ F) (map (@br_energy N) rows ++ E) (map (@br_weight N) rows ++ W) (map (@br_char N) rows ++ C) =
  if existsb (@br_wrong N) (filter (@br_used N) rows) then Throw InvalidArgument
  else Ok ((map (@br_energy N) (filter (@br_used N) rows) ++ E)%list, (map (@br_weight N) (filter (@br_used N) rows) ++ W)%list, (map noneg (filter (@br_used N) rows) ++ C)%list).
Proof.
  induction rows as [|r rows IH] using rev_ind; intros F E W C; [reflexivity|].
  rewrite app_length, Nat.add_comm. cbn [length Nat.add beamLoop]. rewrite !map_app, <- !app_assoc. cbn [map app].
  pose proof (map_length (@br_flag N) rows) as LF. pose proof (map_length (@br_energy N) rows) as LE. pose proof (map_length (@br_weight N) rows) as LW. pose proof (map_length (@br_char N) rows) as LC.
  rewrite <- LF at 1. rewrite vget_mid. cbn [rbind]. rewrite filter_app. cbn [filter].
  assert (G : vget (map (@br_energy N) rows ++ br_energy r :: E) (length rows) = Ok (br_energy r)) by (rewrite <- LE; apply vget_mid).
  rewrite !G. cbn [rmap rbind]. replace (br_used r) with ((0 <? br_flag r)%Z && negb (neqb (br_energy r) (nlit (-666) 0))) by reflexivity. destruct (0 <? br_flag r)%Z; cbn [rbind andb].
  - unfold missing. destruct (neqb (br_energy r) (nlit (-666) 0)) eqn:M; cbn [rbind negb].
    + rewrite <- LE at 1. rewrite erase_mid. cbn [rbind]. rewrite <- LW at 1. rewrite erase_mid. cbn [rbind]. rewrite <- LC at 1. rewrite erase_mid. cbn [rbind].
      rewrite IH. rewrite app_nil_r. reflexivity.
    + rewrite existsb_app. cbn [existsb]. replace (br_wrong r) with (nleb (br_energy r) n0 || nltb (br_weight r) n0) by reflexivity. destruct (nleb (br_energy r) n0); cbn [orb]; [rewrite orb_true_r; reflexivity|].
      rewrite <- LW at 1. rewrite vget_mid. cbn [rbind]. destruct (nltb (br_weight r) n0); [rewrite orb_true_r; reflexivity|].
      rewrite <- LC at 1. rewrite vget_mid. cbn [rbind]. cbn [orb].
      assert (AS : (if (br_char r <? 0)%Z then assign (length rows) 0%Z (map (@br_char N) rows ++ br_char r :: C) else (map (@br_char N) rows ++ br_char r :: C)%list) = (map (@br_char N) rows ++ noneg r :: C)%list).
      { unfold noneg. destruct (br_char r <? 0)%Z; [|reflexivity]. rewrite <- LC. apply assign_mid. }
      rewrite AS, IH. rewrite orb_false_r. destruct (existsb _ _); [reflexivity|]. rewrite !map_app, <- !app_assoc. reflexivity.
  - rewrite <- LE at 1. rewrite erase_mid. cbn [rbind]. rewrite <- LW at 1. rewrite erase_mid. cbn [rbind]. rewrite <- LC at 1. rewrite erase_mid. cbn [rbind].
    rewrite IH. rewrite app_nil_r. reflexivity.
Qed.
Definition beam_of (c : @config N) (rows : list (@beam_row N)) : res (@beam N) :=
  setBeam sortf (c_beam c) (map (@br_energy N) rows) (map (@br_weight N) rows) (map noneg rows) [].
Lemma readBeam_rows d s m rows c : (forall k, mfind sltb k m = value_of d s k) -> beam_rows readDouble d s rows ->
  readBeam readDouble sortf m c =
  if existsb (@br_wrong N) (filter (@br_used N) rows) then (c, Throw InvalidArgument) else xrf_setBeam_result c (beam_of c (filter (@br_used N) rows)).
Proof.
  intros H (E & W & C & F & HE & HW & HC & HF & QE & QW & QC & QF). unfold readBeam, doubles, ints.
  rewrite (@list_in_split m d s _ _ H HE), (@list_in_split m d s _ _ H HW), (@list_in_split m d s _ _ H HC), (@list_in_split m d s _ _ H HF).
  rewrite map_length.
  change (map (fun i => match readDouble i with Some v => v | None => missing end) E) with (map (number readDouble (nlit (-666) 0)) E).
  change (map (fun i => match readDouble i with Some v => v | None => nlit (-1) 0 end) W) with (map (number readDouble minus1) W).
  change (map (fun i => match readInt i with Some v => v | None => (-1)%Z end) C) with (map (integer (-1)) C).
  change (map (fun i => match readInt i with Some v => v | None => 0%Z end) F) with (map (integer 0) F).
  unfold or_ones in QW, QC, QF. rewrite <- QE, <- QW, <- QC, <- QF.
  pose proof (beamLoop_rows rows [] [] [] []) as B. rewrite !app_nil_r in B. rewrite map_length. unfold xbind, xlift. rewrite B.
  destruct (existsb _ _); reflexivity.
Qed.
End Beam.
