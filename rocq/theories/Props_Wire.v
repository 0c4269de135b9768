(** C61: decoding follows the protobuf wire format (any field order, repeated
    fields, non-minimal varints, unknown fields and groups). *)
From Coq Require Import ZArith List Lia Bool.
From Verif Require Import Base Pb Meta PbRecord WireSpec WireProofs.
Import ListNotations.
Open Scope Z_scope.

(** * C61 *)
Theorem C61_decode_follows_wire_format : forall fs l,
  message fs l -> len l < 2 ^ 62 ->
  drec_unmarshal l = match interp set_drec fs drec_zero with Some m => Ok m | None => Err end /\
  meta_unmarshal l = match interp set_meta fs meta_zero with Some m => Ok m | None => Err end.
Proof. intros fs l H Hl. split; [now apply drec_unmarshal_message|now apply meta_unmarshal_message]. Qed.
Print Assumptions C61_decode_follows_wire_format.

(** a field with a number the program does not know may be added anywhere
    between fields without any effect *)
Lemma message_app fs a gs b : message fs a -> message gs b -> message (fs ++ gs) (a ++ b).
Proof. induction 1; intros; cbn [app]; auto. rewrite <- app_assoc. constructor; auto. Qed.

Lemma interp_app {M} (set : Z * content -> M -> option M) fs gs m :
  interp set (fs ++ gs) m = match interp set fs m with Some m' => interp set gs m' | None => None end.
Proof. revert m; induction fs as [|x fs IH]; intros m; cbn; auto. destruct (set x m); auto. Qed.

Theorem C61_unknown_fields_ignored : forall fs a num c u gs b,
  message fs a -> field num c u -> 10 < num -> message gs b -> len (a ++ u ++ b) < 2 ^ 62 ->
  drec_unmarshal (a ++ u ++ b) = drec_unmarshal (a ++ b) /\
  meta_unmarshal (a ++ u ++ b) = meta_unmarshal (a ++ b).
Proof.
  intros fs a num c u gs b Ha Hu Hn Hb Hl.
  pose proof (message_app _ _ _ _ Ha (message_cons _ _ _ _ _ Hu Hb)) as M1.
  pose proof (message_app _ _ _ _ Ha Hb) as M2.
  assert (len (a ++ b) < 2 ^ 62) by (rewrite !len_app in *; pose proof (len_nonneg u); lia).
  destruct (C61_decode_follows_wire_format _ _ M1 Hl) as [-> ->].
  destruct (C61_decode_follows_wire_format _ _ M2 H) as [-> ->].
  rewrite !interp_app. cbn [interp].
  split.
  - destruct (interp set_drec fs drec_zero); auto. rewrite set_drec_other; auto.
    rewrite !Z.eqb_neq. lia.
  - destruct (interp set_meta fs meta_zero); auto. rewrite set_meta_other; auto.
    rewrite !Z.eqb_neq. lia.
Qed.
Print Assumptions C61_unknown_fields_ignored.

(** field 2 twice (the last one wins), with an overlong varint, an unknown
    fixed64, an unknown nested group and an unknown fixed32 in between *)
Example C61_example :
  let l := [16;5] ++ ([89] ++ [1;2;3;4;5;6;7;8]) ++ ([91] ++ (([91] ++ (([8;1] ++ []) ++ [92])) ++ []) ++ [100]) ++
           ([93] ++ [0;0;0;0]) ++ [16;135;0] ++ [] in
  message [(2, CVarint 5); (11, CFixed64 [1;2;3;4;5;6;7;8]); (11, CGroup); (11, CFixed32 [0;0;0;0]); (2, CVarint 7)] l /\
  drec_unmarshal l = Ok (DRec 0 7 0 [] [] 0 0 [] [] 0) /\
  meta_unmarshal l = Ok (Meta 0 7 0 0 0).
Proof.
  cbv zeta. split; [|split; vm_compute; reflexivity].
  assert (V : forall b, 0 <= b < 128 -> varint64 b [b]).
  { intros b Hb. split; [now constructor|split; [lia|cbn; lia]]. }
  assert (V7 : varint64 7 [135; 0]).
  { split; [|split; [lia|cbn; lia]]. apply (varint_more 7 0 [0]); [lia|]. constructor; lia. }
  assert (K : forall n w, 1 <= n < 15 -> 0 <= w < 8 -> key n w [n * 8 + w]).
  { intros n w Hn Hw. split; [lia|]. apply V. lia. }
  apply message_cons. { apply (field_varint 2 [16] 5 [5]); [apply (K 2 0)|apply V]; lia. }
  apply message_cons. { apply (field_fixed64 11 [89]); [apply (K 11 1); lia|reflexivity]. }
  apply message_cons.
  { apply (field_group 11 12 [91] [100]); [apply (K 11 3); lia| |apply (K 12 4); lia].
    apply (fields_cons 11 CGroup).
    { apply (field_group 11 11 [91] [92]); [apply (K 11 3); lia| |apply (K 11 4); lia].
      apply (fields_cons 1 (CVarint 1)); [|constructor].
      apply (field_varint 1 [8] 1 [1]); [apply (K 1 0)|apply V]; lia. }
    constructor. }
  apply message_cons. { apply (field_fixed32 11 [93]); [apply (K 11 5); lia|reflexivity]. }
  apply message_cons. { apply (field_varint 2 [16] 7 [135;0]); [apply (K 2 0); lia|exact V7]. }
  constructor.
Qed.
