(** C78: text in HTTP requests means what was put into it. *)
From Verif Require Import Base Str ConvertModel NumModel NumSpec LsnModel RegNameModel TimeModel TimeSpec JsonModel SpoolModel HttpModel HttpSpec UriModel UriSpec UriProof UriProof2.
From Coq Require Import String List Sorted Permutation.
Open Scope Z_scope. Open Scope list_scope.

(** Any bytes come back when what was escaped is decoded. *)
Theorem C78_roundtrip path s : Forall byte s -> uriDecode (uriEncode path s) = Ok s.
Proof. intros B. apply decode_spec. eapply escaped_decoded. now apply encode_escaped. Qed.
Print Assumptions C78_roundtrip.
(** What is written is the one text with just the bytes escaped that need it, which signatures depend on. *)
Theorem C78_encoded path s t : Forall byte s -> (escaped path s t <-> t = uriEncode path s).
Proof. intros B. split; [|intros ->; now apply encode_escaped]. intros E. eapply escaped_unique; [exact E|now apply encode_escaped]. Qed.
Print Assumptions C78_encoded.
(** Nothing written can end a line, a key, a value or a path: a slash is there just if it was asked to be kept. *)
Theorem C78_safe path s c : Forall byte s -> In c (uriEncode path s) -> unreserved c \/ c = 37 \/ (path = true /\ c = 47 /\ In 47 s).
Proof.
  intros B I. apply (encode_escaped path) in B. induction B as [|x s t K E IH|x h l s t K H L D E IH]; [destruct I| |].
  - destruct I as [<-|I]; [|apply IH in I; cbn [In]; tauto]. destruct K as [K|(K & ->)]; [now left|]. right. right. repeat split; [exact K|now left].
  - assert (HX : forall y, In y (txt "0123456789ABCDEF") -> unreserved y).
    { intros y Y. unfold unreserved. change (txt "0123456789ABCDEF") with [48;49;50;51;52;53;54;55;56;57;65;66;67;68;69;70] in Y. cbn [In] in Y. lia. }
    destruct I as [<-|[<-|[<-|I]]]; [right; now left|left; auto..|]. apply IH in I. cbn [In]. tauto.
Qed.
Print Assumptions C78_safe.
(** What is decoded, exactly, and the only error. *)
Theorem C78_decode t s : uriDecode t = Ok s <-> decoded t s.
Proof. apply decode_spec. Qed.
Print Assumptions C78_decode.
Theorem C78_decode_error t : (exists s, decoded t s) \/ uriDecode t = Err EFormat.
Proof. destruct (decode_err t) as [(s & H)|H]; [left; exists s; now apply decode_spec|now right]. Qed.
Print Assumptions C78_decode_error.
(** Not just hexadecimal digits are accepted in an escape. *)
Theorem C78_sign_refuted : uriDecode (txt "%+5") = Ok [5].
Proof. vm_compute. reflexivity. Qed.
Print Assumptions C78_sign_refuted.
(** A query written and parsed again has the same keys with the same values, in the order of the keys. *)
Theorem C78_query_roundtrip q : q <> [] -> NoDup (map fst q) -> Forall (fun p => Forall byte (fst p) /\ Forall byte (snd p)) q ->
  exists t q2, queryRender (fun _ => false) q = Some t /\ queryNewStr t = Ok q2 /\ queryNewStr (63 :: t) = Ok q2 /\ Permutation q2 q /\ StronglySorted sle (map fst q2).
Proof.
  intros NE ND B. destruct (queryRender (fun _ => false) q) as [t|] eqn:R; [|rewrite render_is in R; destruct q; [contradiction|discriminate]]. destruct (render_parse q t ND B R) as (P1 & P2).
  exists t, (sortedQuery q). repeat split; auto; [now apply sorted_perm|]. rewrite sorted_keys. apply strLstSortAsc_sorted.
Qed.
Print Assumptions C78_query_roundtrip.
(** Two queries with the same keys and values, added in any order, are written the same. *)
Theorem C78_query_order redact q q2 : NoDup (map fst q) -> Permutation q q2 -> queryRender redact q = queryRender redact q2.
Proof.
  intros ND P. assert (ND2 : NoDup (map fst q2)) by (eapply Permutation_NoDup; [apply Permutation_map; exact P|exact ND]). rewrite !render_is.
  assert (S : strLstSortAsc (map fst q) = strLstSortAsc (map fst q2)) by (apply sort_perm_eq; [exact ND|now apply Permutation_map]).
  assert (G : forall k, queryGet q k = queryGet q2 k).
  { intros k. unfold queryGet. destruct (kvGet q k) as [v|] eqn:E.
    - symmetry. apply kvGet_some; [exact ND2|]. apply kvGet_some in E; [|exact ND]. now apply (Permutation_in _ P).
    - symmetry. apply kvGet_in. apply kvGet_in in E. intros I. apply E. apply (Permutation_in _ (Permutation_sym (Permutation_map fst P))). exact I. }
  assert (M : map (renderText redact q) (strLstSortAsc (map fst q2)) = map (renderText redact q2) (strLstSortAsc (map fst q2))).
  { apply map_ext. intros k. unfold renderText. now rewrite G. }
  rewrite S, M. destruct q, q2; try reflexivity; [apply Permutation_nil in P; discriminate|apply Permutation_sym, Permutation_nil in P; discriminate].
Qed.
Print Assumptions C78_query_order.
(** Nothing is written just for a query with no keys. *)
Theorem C78_query_none redact q : queryRender redact q = None <-> q = [].
Proof. rewrite render_is. destruct q; [tauto|]. split; discriminate. Qed.
Print Assumptions C78_query_none.
(** What is accepted as a query, exactly, and all errors. *)
Theorem C78_parse s q : queryNewStr s = Ok q <-> exists ts, queryText s ts /\ Forall2 decodedPair ts q /\ NoDup (map fst q).
Proof. apply newStr_spec. Qed.
Print Assumptions C78_parse.
Theorem C78_parse_errors s : (exists q, queryNewStr s = Ok q) \/ queryNewStr s = Err EFormat \/ queryNewStr s = Err EAssert.
Proof. apply pairs_err. Qed.
Print Assumptions C78_parse_errors.
(** The value of a redacted key has no influence on what is logged; the key, and what is not redacted, is still there. *)
Theorem C78_redact redact q1 q2 : map fst q1 = map fst q2 -> (forall k, redact k = false -> queryGet q1 k = queryGet q2 k) -> queryRender redact q1 = queryRender redact q2.
Proof. apply render_redact. Qed.
Print Assumptions C78_redact.
Theorem C78_redact_text redact k v : queryRender redact [(k, v)] = Some (uriEncode false k ++ 61 :: (if redact k then txt "<redacted>" else uriEncode false v)).
Proof. unfold queryRender, queryGet. cbn [map fst strLstSortAsc]. cbn. now rewrite strEqb_refl. Qed.
Print Assumptions C78_redact_text.
(** Adding, replacing and merging. *)
Theorem C78_add q k v q2 : (queryAdd q k v = Ok q2 <-> ~ In k (map fst q) /\ q2 = q ++ [(k, v)]) /\ (In k (map fst q) -> queryAdd q k v = Err EAssert).
Proof. split; [apply add_spec|apply add_err]. Qed.
Print Assumptions C78_add.
Theorem C78_put q k v k2 : queryGet (queryPut q k v) k2 = if strEqb k k2 then Some v else queryGet q k2.
Proof. apply put_get. Qed.
Print Assumptions C78_put.
Theorem C78_put_keys q k v : NoDup (map fst q) -> NoDup (map fst (queryPut q k v)) /\ forall x, In x (map fst (queryPut q k v)) <-> x = k \/ In x (map fst q).
Proof. apply put_nodup. Qed.
Print Assumptions C78_put_keys.
Theorem C78_get q k v : NoDup (map fst q) -> (queryGet q k = Some v <-> In (k, v) q).
Proof. apply kvGet_some. Qed.
Print Assumptions C78_get.
Theorem C78_merge q from : (forall q2, queryMerge q from = Ok q2 <-> q2 = q ++ from /\ NoDup (map fst from) /\ (forall k, In k (map fst from) -> ~ In k (map fst q))) /\
  ((exists q2, queryMerge q from = Ok q2) \/ queryMerge q from = Err EAssert).
Proof. split; [intros q2; apply merge_spec|apply merge_err]. Qed.
Print Assumptions C78_merge.
(** A date written is read as the same time. *)
Theorem C78_date w y m d h mi s n : dayNumber y m d n -> validTime h mi s -> y <= 2037 -> 0 <= w < 7 ->
  dateToTime (dateFromParts w d (m - 1) y h mi s) = Ok (n * 86400 + h * 3600 + mi * 60 + s).
Proof. apply date_roundtrip. Qed.
Print Assumptions C78_date.
(** It is the text other programs expect. *)
Theorem C78_date_text w wn y m mn d h mi s : weekdayName w wn -> monthName m mn -> 0 <= y < 10000 -> 0 <= d < 100 -> 0 <= h < 100 -> 0 <= mi < 100 -> 0 <= s < 100 ->
  exists dd yy hh mm ss, fixedDigits 2 dd d /\ fixedDigits 4 yy y /\ fixedDigits 2 hh h /\ fixedDigits 2 mm mi /\ fixedDigits 2 ss s /\
    dateFromParts w d (m - 1) y h mi s = wn ++ txt ", " ++ dd ++ txt " " ++ mn ++ txt " " ++ yy ++ txt " " ++ hh ++ txt ":" ++ mm ++ txt ":" ++ ss ++ txt " GMT".
Proof. apply date_text. Qed.
Print Assumptions C78_date_text.
(** A date with its parts in their places is read as its time, whatever is between and after them. *)
Theorem C78_date_read w dd c1 mn c2 yy c3 hh c4 mm c5 ss rest y m d h mi s n : length w = 5%nat -> fixedDigits 2 dd d -> length c1 = 1%nat -> monthName m mn -> length c2 = 1%nat -> fixedDigits 4 yy y -> length c3 = 1%nat ->
  fixedDigits 2 hh h -> length c4 = 1%nat -> fixedDigits 2 mm mi -> length c5 = 1%nat -> fixedDigits 2 ss s -> dayNumber y m d n -> validTime h mi s -> y <= 2037 ->
  dateToTime (w ++ dd ++ c1 ++ mn ++ c2 ++ yy ++ c3 ++ hh ++ c4 ++ mm ++ c5 ++ ss ++ rest) = Ok (n * 86400 + h * 3600 + mi * 60 + s).
Proof. apply date_any. Qed.
Print Assumptions C78_date_read.
(** A date from the server that is too short is read past its end. *)
Theorem C78_date_short_refuted s : (length s < 8)%nat -> dateToTime s = UB.
Proof. intros L. unfold dateToTime. apply Nat.ltb_lt in L. now rewrite L. Qed.
Print Assumptions C78_date_short_refuted.
(** The year of a date from the server can be one whose time is not an int. *)
Theorem C78_date_year_refuted : dateToTime (txt "Fri, 01 Jan 2100 00:00:00 GMT") = UB.
Proof. vm_compute. reflexivity. Qed.
Print Assumptions C78_date_year_refuted.
(** Any other name of a month is an error. *)
Theorem C78_date_month s : (8 <= length s)%nat -> ~ In (firstn 3 (skipn 8 s)) (map txt ["Jan"; "Feb"; "Mar"; "Apr"; "May"; "Jun"; "Jul"; "Aug"; "Sep"; "Oct"; "Nov"; "Dec"]%string) -> dateToTime s = Err EFormat.
Proof. intros L NI. unfold dateToTime. destruct (Nat.ltb_spec (length s) 8); [lia|]. rewrite findIdx_none; [reflexivity|exact NI]. Qed.
Print Assumptions C78_date_month.
Example C78_nontrivial :
  uriEncode false (txt "a b/c%" ++ [255]) = txt "a%20b%2Fc%25%FF" /\ uriEncode true (txt "/a b") = txt "/a%20b" /\
  queryNewStr (txt "?b=%31&a=") = Ok [(txt "b", txt "1"); (txt "a", [])] /\ queryNewStr (txt "a=1&a=2") = Err EAssert /\ queryNewStr (txt "a") = Err EFormat /\
  queryRender (fun k => strEqb k (txt "sig")) [(txt "sig", txt "secret"); (txt "a b", txt "1&2")] = Some (txt "a%20b=1%262&sig=<redacted>") /\
  dateToTime (txt "Wed, 21 Oct 2015 07:28:00 GMT") = Ok 1445412480 /\ dateFromParts 3 21 9 2015 7 28 0 = txt "Wed, 21 Oct 2015 07:28:00 GMT" /\
  dateToTime (txt "Wed, 21 Okt 2015 07:28:00 GMT") = Err EFormat.
Proof. vm_compute. repeat split. Qed.
