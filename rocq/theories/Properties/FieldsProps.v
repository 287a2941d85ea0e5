(** C60, C61: lists of values in a text, and requests written as texts. *)
From Coq Require Import Ascii String List ZArith Bool Arith Lia DecimalString.
From Verif Require Import Base.Num Base.Res Base.SMap Base.Str Base.Text Base.ListLemmas Model.SimpleIni Model.Beam Model.XRF Model.Multilayer Spec.IniSpec Spec.FieldsSpec Proofs.IniProofs Proofs.FieldsProofs.
Import ListNotations.
Set Implicit Arguments.
Local Open Scope string_scope.

(** ** C60 *)
(** A text is cut at every separator; every item, blank ones included, gives one value, except that
    nothing after the last separator is no item. *)
Theorem C60_values (sep : ascii) (dflt : text) (items : list text) (last : text) :
  Forall (fun i => ~ In sep i) items -> ~ In sep last ->
  Forall2 (reads dflt) (items ++ match last with [] => [] | _ => [last] end)%list (parseStringAsMultipleValues (join sep (items ++ [last])) dflt sep).
Proof.
  intros H Hl. unfold parseStringAsMultipleValues. rewrite split_join by assumption.
  assert (G : forall l, Forall2 (reads dflt) l (map (fun item => match readWord item with Some w => w | None => dflt end) l)).
  { induction l as [|i l IH]; cbn [map]; constructor; [apply readWord_reads|exact IH]. }
  apply G.
Qed.
(** words separated by one separator come back as they are *)
Theorem C60_words (ws : list text) :
  ws <> [] -> Forall (fun s => s <> [] /\ Forall (fun c => ~ space c) s) ws -> parseStringAsMultipleValues (join " "%char ws) [] " "%char = ws.
Proof. exact (@parse_words ws). Qed.
(** the value of an item is unique *)
Theorem C60_unique dflt item v w : reads dflt item v -> reads dflt item w -> v = w.
Proof.
  assert (U : forall item a b v, item = (a ++ v ++ b)%list -> Forall space a -> v <> [] -> Forall (fun c => ~ space c) v -> (b = [] \/ exists c r, b = c :: r /\ space c) ->
    readWord item = Some v).
  { clear. intros item a b v -> A N V B. unfold readWord. unfold lstrip. rewrite drop_while_app by exact A.
    assert (W : word (v ++ b)%list = v).
    { clear A N. induction V as [|c v H _ IH]; cbn [app word].
      - destruct B as [->|(c & r & -> & S)]; [reflexivity|]. cbn [word]. unfold space in S. rewrite S. reflexivity.
      - unfold space in H. apply not_true_is_false in H. rewrite H. f_equal. exact IH. }
    destruct v as [|c v]; [contradiction|]. inversion V as [|? ? H _]; subst. unfold space in H. apply not_true_is_false in H. cbn [app] in *. rewrite (drop_while_hd _ _ _ H). rewrite W. reflexivity. }
  assert (S : forall item, Forall space item -> readWord item = None).
  { clear. intros item H. unfold readWord, lstrip. rewrite drop_while_all by exact H. reflexivity. }
  intros [[H ->]|(a & b & E & A & N & V & B)] [[H' ->]|(a' & b' & E' & A' & N' & V' & B')].
  - reflexivity.
  - pose proof (S _ H) as Q. rewrite (U _ _ _ _ E' A' N' V' B') in Q. discriminate.
  - pose proof (S _ H') as Q. rewrite (U _ _ _ _ E A N V B) in Q. discriminate.
  - pose proof (U _ _ _ _ E A N V B) as Q. rewrite (U _ _ _ _ E' A' N' V' B') in Q. congruence.
Qed.
Example C60_example : parseStringAsMultipleValues (list_ascii_of_string " 17.4, ,Fe 2 ,") (list_ascii_of_string "-1") ","%char = map list_ascii_of_string ["17.4"; "-1"; "Fe"].
Proof. vm_compute. reflexivity. Qed.
Print Assumptions C60_values.
Print Assumptions C60_words.
Print Assumptions C60_unique.

(** ** C61 *)
Section Keys.
Context {N : Num}.
Variables (sortf : list num -> list num) (debug lf : bool) (xl : @xlib N) (c : @config N) (secondary useGeo useMass : Z) (limit : num) (over : @beam N).
Local Notation calculate elements families layers := (@getMultilayerFluorescence N sortf debug lf xl c elements families layers secondary useGeo useMass limit over).
Local Notation by_keys keys := (@getMultilayerFluorescence_keys N sortf debug lf xl c keys secondary useGeo useMass limit over).

(** Requests written as keys are the requests. *)
Theorem C61_keys (rs : list request) : Forall request_ok rs ->
  by_keys (map key_of_request rs) = calculate (map request_element rs) (map request_family rs) (map request_layer rs).
Proof.
  intros H. unfold getMultilayerFluorescence_keys.
  assert (E : rmapM parseKey (map key_of_request rs) = Ok (map (fun r => (request_element r, request_family r, request_layer r)) rs)).
  { induction H as [|r rs Hr _ IH]; [reflexivity|]. cbn [map rmapM]. rewrite parseKey_request by exact Hr. cbn [rbind]. rewrite IH. reflexivity. }
  rewrite E. cbn [rbind]. rewrite !map_map. reflexivity.
Qed.
(** A third word that is not a number, or a number that no int can hold, throws, wherever it is in the list. *)
Theorem C61_bad_layer (rs : list request) (e f : string) (w : text) (rest : list string) :
  Forall request_ok rs -> bare e -> bare f ->
  (w <> [] /\ Forall (fun x => ~ space x) w /\ Forall (fun x => isdigit x = false) w) \/ (exists z, (z < -2147483648 \/ 2147483647 < z)%Z /\ w = list_ascii_of_string (NilZero.string_of_int (Z.to_int z))) ->
  by_keys (map key_of_request rs ++ (e ++ " " ++ f ++ " " ++ string_of_list_ascii w)%string :: rest)%list = Throw InvalidArgument.
Proof.
  intros H B1 B2 W. unfold getMultilayerFluorescence_keys.
  assert (R : readInt w = None /\ w <> [] /\ Forall (fun x => ~ space x) w).
  { destruct W as [(N0 & S & D)|(z & Z & ->)].
    - split; [|auto]. unfold readInt. rewrite bare_strip by exact S. destruct w as [|a w]; [contradiction|]. inversion D as [|? ? D1 D2]; subst.
      assert (ND : digitsOf w = []) by (destruct w as [|b w]; [reflexivity|]; inversion D2 as [|? ? D3 _]; subst; cbn [digitsOf]; rewrite D3; reflexivity).
      destruct (Ascii.eqb a "-"); [rewrite ND; reflexivity|]. destruct (Ascii.eqb a "+"); [rewrite ND; reflexivity|]. cbn [digitsOf]. rewrite D1. reflexivity.
    - split; [apply readInt_out, Z|apply printed_bare]. }
  destruct R as (R & N0 & S).
  assert (E : rmapM parseKey (map key_of_request rs ++ (e ++ " " ++ f ++ " " ++ string_of_list_ascii w)%string :: rest)%list = Throw InvalidArgument).
  { clear W. induction H as [|r rs Hr _ IH]; cbn [map app rmapM].
    - unfold parseKey at 1. pose proof (@parse_words [list_ascii_of_string e; list_ascii_of_string f; w] ltac:(discriminate)
        (Forall_cons _ (bare_list B1) (Forall_cons _ (bare_list B2) (Forall_cons _ (conj N0 S) (Forall_nil _))))) as P.
      cbn [join] in P. rewrite !lst_app. cbn [list_ascii_of_string app]. rewrite list_ascii_of_string_of_list_ascii. rewrite P, R. reflexivity.
    - rewrite parseKey_request by exact Hr. cbn [rbind]. rewrite IH. reflexivity. }
  rewrite E. reflexivity.
Qed.
(** A key of more than three words is not refused: it asks for the element and the family without a name. *)
Theorem C61_more_words (w1 w2 w3 w4 : text) (more : list text) : Forall (fun s => s <> [] /\ Forall (fun c => ~ space c) s) (w1 :: w2 :: w3 :: w4 :: more) ->
  by_keys [string_of_list_ascii (join " "%char (w1 :: w2 :: w3 :: w4 :: more))] = calculate [""] [""] [0%Z].
Proof.
  intros H. unfold getMultilayerFluorescence_keys. cbn [rmapM]. unfold parseKey. rewrite list_ascii_of_string_of_list_ascii, parse_words by (try discriminate; exact H). reflexivity.
Qed.
(** The overload for one element. *)
Theorem C61_one e f layer : @getMultilayerFluorescence_one N sortf debug lf xl c e layer f secondary useGeo useMass limit over =
  if String.eqb f "" || (layer <? 0)%Z then Throw InvalidArgument else calculate [e] [f] [layer].
Proof. unfold getMultilayerFluorescence_one. destruct (String.eqb f ""); [reflexivity|]. destruct (layer <? 0)%Z; reflexivity. Qed.
End Keys.
Print Assumptions C61_keys.
Print Assumptions C61_bad_layer.
Print Assumptions C61_more_words.
Print Assumptions C61_one.
Example C61_example : Forall request_ok [Elem "Cr"; Fam "Fe" "K"; Lay "Pb" "L3" (12)] /\ map key_of_request [Elem "Cr"; Fam "Fe" "K"; Lay "Pb" "L3" (12)] = ["Cr"; "Fe K"; "Pb L3 12"].
Proof.
  split; [|reflexivity].
  assert (B : forall s, s <> "" -> forallb (fun c => negb (isspace c)) (list_ascii_of_string s) = true -> bare s).
  { intros s H F. split; [exact H|]. apply Forall_forall. intros x I. rewrite forallb_forall in F. specialize (F x I). apply negb_true_iff in F. unfold space. congruence. }
  repeat constructor; try apply B; try discriminate; reflexivity.
Qed.
