(** C161 to C164: JsonEncode and JsonDecode. *)
From Coq Require Import ZArith List Bool Lia ZifyBool Sorted.
From Verif Require Import Uuid_Model Json_Model Json_Spec Json_Chars Json_Proofs Json_Encode.
Import ListNotations.
Local Open Scope Z_scope.

(** Numbers for the examples: those of one digit; 10 stands for what cannot be written. *)
Definition one_digit : numbers Z := {| show := fun x => if (0 <=? x) && (x <=? 9) then Some [48 + x] else None; read := fun t => match t with [b] => if digit b then Some (b - 48) else None | _ => None end |}.
Example one_digit_ok : strconv_ok one_digit /\ reads_finite one_digit.
Proof.
  split.
  - intros x t. cbn [show read one_digit]. destruct ((0 <=? x) && (x <=? 9)) eqn:E; [|discriminate]. intros H. assert (t = [48 + x]) as -> by congruence. split.
    + exists [], [48 + x], [], []. repeat split; auto; [|left; reflexivity|left; reflexivity]. destruct (Z.eq_dec x 0) as [->|]; [left; reflexivity|]. right. exists (48 + x), []. repeat split; [lia|discriminate|]. constructor; [lia|constructor].
    + unfold digit, in_. destruct ((48 <=? 48 + x) && (48 + x <=? 57)) eqn:D; [f_equal; lia|lia].
  - intros t x. cbn [show read one_digit]. destruct t as [|b [|]]; try discriminate. unfold digit, in_. destruct ((48 <=? b) && (b <=? 57)) eqn:D; [|discriminate]. intros [= <-]. exists [48 + (b - 48)]. destruct ((0 <=? b - 48) && (b - 48 <=? 9)) eqn:E; [reflexivity|lia].
Qed.
(** [{"a":[1,true,null,"é<"],"b":{}}]. *)
Definition sample : json Z := JObj [([97], JArr [JNum 1; JBool true; JNull; JStr [195; 169; 60]]); ([98], JObj [])].
Example sample_proper : proper one_digit sample /\ depth sample = 2.
Proof.
  assert (forall b, 0 <= b < 128 -> valid [b]) as V by (intros b H; apply (valid_char b [b]); [constructor; lia|constructor]).
  split; [|reflexivity]. constructor; [repeat constructor| |].
  - constructor; [apply V; cbn; lia|]. constructor; [apply V; cbn; lia|constructor].
  - constructor; [|constructor; [|constructor]]; cbn [snd]; [|constructor; constructor]. constructor. constructor; [apply (pr_num _ 1 [49]); reflexivity|]. constructor; [constructor|]. constructor; [constructor|]. constructor; [|constructor].
    constructor. apply (valid_char 233 [195; 169] [60]); [apply (runeBytes_utf8 233); unfold scalar; lia|apply V; lia].
Qed.

(** ** C161 *)
(** Text whose strings are UTF-8, whose numbers are finite and which is nested at most 10000 deep. *)
Theorem c161_round_trip_partial {N} (F : numbers N) v : strconv_ok F -> proper F v -> depth v <= 10000 -> JsonDecode F (JsonEncode F v) = Some v.
Proof. apply round_trip. Qed.
Print Assumptions c161_round_trip_partial.
(** No other value comes back. *)
Theorem c161_no_other {N} (F : numbers N) v : strconv_ok F -> reads_finite F -> (JsonDecode F (JsonEncode F v) = Some v <-> proper F v /\ depth v <= 10000).
Proof. intros OK RF. split; [apply JsonDecode_proper, RF|]. intros [H1 H2]. apply round_trip; assumption. Qed.
Print Assumptions c161_no_other.
Example c161_ex : JsonEncode one_digit sample = [123; 34; 97; 34; 58; 91; 49; 44; 116; 114; 117; 101; 44; 110; 117; 108; 108; 44; 34; 195; 169; 92; 117; 48; 48; 51; 99; 34; 93; 44; 34; 98; 34; 58; 123; 125; 125] /\
  JsonDecode one_digit (JsonEncode one_digit sample) = Some sample.
Proof. split; [vm_compute; reflexivity|]. apply c161_round_trip_partial; [apply one_digit_ok|apply sample_proper|vm_compute; discriminate]. Qed.
(** A string that is no UTF-8 comes back as another one; a value with a number that cannot be written is lost, with no error, into an empty slice, which is no JSON;
    a value nested deeper is written and cannot be read. *)
Fixpoint nested {N} (n : nat) : json N := match n with O => JNull | S n => JArr [nested n] end.
Lemma nested_depth {N} n : depth (@nested N n) = Z.of_nat n.
Proof. induction n as [|n IH]; [reflexivity|]. cbn [nested depth map fold_right]. rewrite IH. lia. Qed.
Lemma nested_proper {N} (F : numbers N) n : proper F (nested n).
Proof. induction n as [|n IH]; [constructor|]. cbn [nested]. constructor. constructor; [exact IH|constructor]. Qed.
Theorem c161_round_trip_refuted :
  (forall N (F : numbers N), JsonDecode F (JsonEncode F (JStr [255])) = Some (JStr [0xEF; 0xBF; 0xBD])) /\
  (forall N (F : numbers N) x l, show F x = None -> JsonEncode F (JArr (JNum x :: l)) = [] /\ JsonDecode F [] = None) /\
  (forall N (F : numbers N) n, strconv_ok F -> reads_finite F -> (10000 < Z.of_nat n) -> JsonEncode F (nested n) <> [] /\ JsonDecode F (JsonEncode F (nested n)) <> Some (nested n)).
Proof.
  split; [intros N F; vm_compute; reflexivity|]. split.
  - intros N F x l H. unfold JsonEncode. cbn [Marshal map]. rewrite H. split; reflexivity.
  - intros N F n OK RF Hn. split.
    + destruct (Marshal_sound F (nested n) OK (nested_proper F n) (Z.of_nat n)) as (t & E & Ht); [rewrite nested_depth; lia|]. unfold JsonEncode. rewrite E. destruct (denotes_begins F _ _ _ _ Ht) as (b & r & -> & _). discriminate.
    + intros H. apply (c161_no_other F) in H; [|assumption|assumption]. rewrite nested_depth in H. lia.
Qed.
Print Assumptions c161_round_trip_refuted.
Example c161_refuted_ex : show one_digit 10 = None /\ JsonEncode one_digit (JArr [JNum 10; JNull]) = [] /\ JsonDecode one_digit [] = None.
Proof. repeat split. Qed.

(** ** C162 *)
(** Every JSON text nested at most 10000 deep is read, and read as RFC 8259 says; of members with the same name the last counts. *)
Theorem c162_reads_json {N} (F : numbers N) v t : text_of F false v t -> JsonDecode F t = Some v.
Proof. apply JsonDecode_complete. Qed.
Print Assumptions c162_reads_json.
(** Nothing else is read, but for strings with bytes that are no UTF-8 and with single surrogates. *)
Theorem c162_only_json_partial {N} (F : numbers N) v t : JsonDecode F t = Some v <-> text_of F true v t.
Proof. split; [apply JsonDecode_sound|apply JsonDecode_complete]. Qed.
Print Assumptions c162_only_json_partial.
(** [ {"b" : 1, "b":2} ]. *)
Example c162_ex : text_of one_digit false (JObj [([98], JNum 2)]) [32; 123; 34; 98; 34; 32; 58; 32; 49; 44; 34; 98; 34; 58; 50; 125] /\
  JsonDecode one_digit [32; 123; 34; 98; 34; 32; 58; 32; 49; 44; 34; 98; 34; 58; 50; 125] = Some (JObj [([98], JNum 2)]) /\ JsonDecode one_digit [91; 49; 44; 93] = None /\ JsonDecode one_digit [48; 49] = None.
Proof.
  split; [|vm_compute; repeat split]. assert (blank []) as B by constructor. assert (blank [32]) as S by (constructor; [auto|constructor]).
  assert (forall d b, 49 <= b <= 57 -> denotes one_digit false d (JNum (b - 48)) [b]) as Dn.
  { intros d b Hb. constructor; [|cbn; unfold digit, in_; destruct ((48 <=? b) && (b <=? 57)) eqn:E; [reflexivity|lia]]. exists [], [b], [], []. repeat split; auto; [|left; reflexivity|left; reflexivity]. right. exists b, []. repeat split; [lia|discriminate|]. constructor; [lia|constructor]. }
  assert (spells false [98] [98]) as Sb by (apply (sp_char false 98 [98] [] []); [constructor; lia|lia|lia|lia|constructor]).
  exists [32], [123; 34; 98; 34; 32; 58; 32; 49; 44; 34; 98; 34; 58; 50; 125], []. split; [reflexivity|]. split; [exact S|]. split; [|exact B].
  apply (d_obj one_digit false 10000 [([98], JNum 1); ([98], JNum 2)] [([98], JNum 2)] [34; 98; 34; 32; 58; 32; 49; 44; 34; 98; 34; 58; 50]); [lia| |].
  - apply (p_more one_digit false 9999 [98] [98] (JNum 1) [49] [] [32] [32] [] [([98], JNum 2)] [34; 98; 34; 58; 50] B Sb S S (Dn 9999 49 ltac:(lia)) B). apply (p_one one_digit false 9999 [98] [98] (JNum 2) [50] [] [] [] [] B Sb B B (Dn 9999 50 ltac:(lia)) B).
  - split; [repeat constructor|]. intros k. cbn. destruct (list_eq_dec Z.eq_dec k [98]); reflexivity.
Qed.
(** The byte 255 in quotes is not JSON, and is read. *)
Theorem c162_only_json_refuted : forall N (F : numbers N), (forall v, ~ text_of F false v [34; 255; 34]) /\ JsonDecode F [34; 255; 34] = Some (JStr [0xEF; 0xBF; 0xBD]).
Proof.
  intros N F. split; [|vm_compute; reflexivity]. intros v H. pose proof (JsonDecode_complete F false v _ H) as E. vm_compute in E. injection E as <-. destruct H as (a & u & b & E & Ha & Hu & Hb). inversion Hu as [| | | |d s t Hs| | | |]; subst.
  destruct Ha as [|x a Hx _]; [|injection E; intros; lia]. cbn [app] in E. injection E as E. destruct t as [|x t]; [cbn in E; destruct b as [|y b]; discriminate|]. cbn [app] in E. injection E as Ex E. subst x. destruct t as [|x t].
  - clear E Hu. inversion Hs as [|c u s t Hc H1 H2 H3 Hs' E1 E2| | | | |]; subst; try discriminate. destruct (utf8_pos c u Hc) as [k Hk]. destruct u as [|y u]; [discriminate|]. injection E2 as -> E2. destruct u; [|discriminate]. inversion Hc; lia.
  - cbn [app] in E. injection E as _ E. destruct t; discriminate.
Qed.
Print Assumptions c162_only_json_refuted.

(** ** C163 *)
(** Whatever the strings and keys are, what JsonEncode writes is UTF-8 without <, >, &, U+2028 and U+2029. *)
Theorem c163_harmless {N} (F : numbers N) v : strconv_ok F -> in_bytes v -> harmless (JsonEncode F v).
Proof. intros OK Hv. unfold JsonEncode. destruct (Marshal F v) as [t|] eqn:E; [apply (Marshal_harmless F v OK Hv t E)|constructor]. Qed.
Print Assumptions c163_harmless.
(** The bytes < and 255 and U+2028 in one string. *)
Example c163_ex : in_bytes (@JStr Z [60; 255; 0xE2; 0x80; 0xA8]) /\ JsonEncode one_digit (JStr [60; 255; 0xE2; 0x80; 0xA8]) = [34; 92; 117; 48; 48; 51; 99; 92; 117; 102; 102; 102; 100; 92; 117; 50; 48; 50; 56; 34].
Proof. split; [constructor; repeat (constructor; [lia|]); constructor|vm_compute; reflexivity]. Qed.

(** ** C164 *)
(** What has been read can be written and read again. *)
Theorem c164_read_again {N} (F : numbers N) t v : strconv_ok F -> reads_finite F -> JsonDecode F t = Some v -> JsonDecode F (JsonEncode F v) = Some v.
Proof. intros OK RF H. destruct (JsonDecode_proper F v t RF H) as [P D]. apply round_trip; assumption. Qed.
Print Assumptions c164_read_again.
(** [ ["é", 7] ], with blanks. *)
Example c164_ex : JsonDecode one_digit [91; 32; 34; 92; 117; 48; 48; 69; 57; 34; 44; 32; 55; 32; 93] = Some (JArr [JStr [195; 169]; JNum 7]) /\ JsonEncode one_digit (JArr [JStr [195; 169]; JNum 7]) = [91; 34; 195; 169; 34; 44; 55; 93].
Proof. split; vm_compute; reflexivity. Qed.
