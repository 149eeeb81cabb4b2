(** C60: regular expressions *)
From Coq Require Import String Ascii.
From Verif Require Import Base Str RegModel RegNameModel RegSpec RegProof RegProof2 RegProof3 RegProof4.
Open Scope Z_scope.

(** The matcher finds a match exactly when some part of the string matches. *)
Theorem C60_match_exact r s : regExpMatch r s = true <-> found r s.
Proof. apply regexec_spec. Qed.
Print Assumptions C60_match_exact.

(** Everything that an expression with one branch matches begins with its prefix, unless what follows the prefix makes its end optional.  So listing only
    what begins with the prefix, as the object stores do, loses nothing. *)
Theorem C60_prefix e p r s : regcomp e = Ok [r] -> regExpPrefix e = Some p -> notOptional (skipn (S (length p)) e) ->
  regExpMatchOne e s = Ok true -> exists t, s = p ++ t.
Proof. intros E. apply prefix_begins. intros l H. rewrite E in H. injection H as <-. eauto. Qed.
Print Assumptions C60_prefix.
(** Without '|' there is one branch. *)
Theorem C60_prefix_no_bar e p s : ~ In 124 e -> regExpPrefix e = Some p -> notOptional (skipn (S (length p)) e) ->
  regExpMatchOne e s = Ok true -> exists t, s = p ++ t.
Proof. intros N. apply prefix_begins. intros l. apply regcomp_one. exact N. Qed.
Print Assumptions C60_prefix_no_bar.

(** The condition on branches is needed: ^ab|cd has the prefix ab but matches xcd. *)
Theorem C60_prefix_branches_refuted : exists e p s, regExpPrefix e = Some p /\ notOptional (skipn (S (length p)) e) /\ regExpMatchOne e s = Ok true /\
  strBeginsWith s p = false.
Proof. exists (txt "^ab|cd"), (txt "ab"), (txt "xcd"). vm_compute. repeat split; discriminate. Qed.
Print Assumptions C60_prefix_branches_refuted.
(** The other condition is needed: ^ab* has the prefix ab but matches a; so do ^ab? and ^ab{0,1}. *)
Theorem C60_prefix_optional_refuted : forall e, In e [txt "^ab*"; txt "^ab?"; txt "^ab{0,1}"] ->
  regExpPrefix e = Some (txt "ab") /\ ~ In 124 e /\ regExpMatchOne e (txt "a") = Ok true.
Proof. intros e [<-|[<-|[<-|[]]]]; vm_compute; intuition discriminate. Qed.
Print Assumptions C60_prefix_optional_refuted.

(** * Names *)
(** WAL segments are 24 characters from '0' to 'F', directories 16; a segment to be archived may have .partial after it. *)
Theorem C60_segment s : regExpMatchOne walSegmentRegExp s = Ok true <-> length s = 24%nat /\ between 48 70 s.
Proof. apply segment_match. Qed.
Print Assumptions C60_segment.
Theorem C60_segment_dir s : regExpMatchOne walSegmentDirRegExp s = Ok true <-> length s = 16%nat /\ between 48 70 s.
Proof. apply dir_match. Qed.
Print Assumptions C60_segment_dir.
Theorem C60_is_segment s : walIsSegment s = Ok true <->
  exists w x, s = w ++ x /\ length w = 24%nat /\ between 48 70 w /\ (x = [] \/ x = txt ".partial").
Proof. apply partial_match. Qed.
Print Assumptions C60_is_segment.
(** Files in the archive are a segment, '-', 40 characters from '0' to 'f' and one of the extensions or none. *)
Theorem C60_segment_file s : regExpMatchOne walSegmentFileRegExp s = Ok true <->
  exists w x, s = w ++ x /\ length w = 24%nat /\ between 48 70 w /\ hashExt x.
Proof. apply file_match. Qed.
Print Assumptions C60_segment_file.
(** The characters from '0' to 'F' are not only hex digits: a colon is accepted. *)
Theorem C60_hex_refuted : exists s, walIsSegment s = Ok true /\ In 58 s.
Proof. exists (txt "00000001:000000000000001"). vm_compute. split; [reflexivity|]. do 8 right. left. reflexivity. Qed.
Print Assumptions C60_hex_refuted.

(** The expression for a segment matches exactly the files of that segment in the archive, and the segment is its prefix. *)
Theorem C60_find seg s : length seg = 24%nat -> (forall c, In c seg -> 48 <= c <= 57 \/ 65 <= c <= 70) ->
  (regExpMatchOne (walFindRegExp seg) s = Ok true <-> exists y, s = seg ++ y /\ hashExt y) /\ regExpPrefix (walFindRegExp seg) = Some seg.
Proof.
  intros L H. destruct (hex_literal seg H) as [H1 H2]. split; [apply find_match; [exact L|exact H1|apply hex_not_partial; assumption]|].
  apply find_prefix; assumption.
Qed.
Print Assumptions C60_find.
(** For a partial segment the dot stands for any character. *)
Theorem C60_find_partial seg s : length seg = 24%nat -> (forall c, In c seg -> 48 <= c <= 57 \/ 65 <= c <= 70) ->
  regExpMatchOne (walFindRegExp (seg ++ txt ".partial")) s = Ok true <-> exists c y, s = seg ++ c :: txt "partial" ++ y /\ hashExt y.
Proof. intros L H. destruct (hex_literal seg H) as [H1 _]. apply find_partial_match; assumption. Qed.
Print Assumptions C60_find_partial.

(** The expression for labels matches exactly the labels of the types asked for. *)
Theorem C60_label full diff incr s : full || diff || incr = true ->
  regExpMatchOne (backupRegExp full diff incr false) s = Ok true <-> full = true /\ fullLabel s \/ depLabel diff incr s.
Proof. apply label_match. Qed.
Print Assumptions C60_label.
(** The expression for manifests in the history (expire.c:988-991) matches exactly a label with the extension *)
Theorem C60_history full diff incr s : full || diff || incr = true ->
  regExpMatchOne (backupRegExp full diff incr true ++ txt "\.manifest\.gz$") s = Ok true <-> exists l, s = l ++ txt ".manifest.gz" /\ (full = true /\ fullLabel l \/ depLabel diff incr l).
Proof. apply history_match. Qed.
Print Assumptions C60_history.

Definition exSegment : str := txt "0000000100000002000000FE".
Definition exFile : str := exSegment ++ txt "-0123456789abcdef0123456789abcdef01234567.zst".
Example C60_nontrivial :
  regExpMatchOne walSegmentFileRegExp exFile = Ok true /\ regExpMatchOne (walFindRegExp exSegment) exFile = Ok true /\
  regExpPrefix (txt "^ABC+[^x]") = Some (txt "ABC") /\ notOptional (skipn 4 (txt "^ABC+[^x]")) /\ ~ In 124 (txt "^ABC+[^x]") /\
  regExpMatchOne (txt "^ABC+[^x]") (txt "ABCCCd") = Ok true /\
  regExpMatchOne (backupRegExp true true false false) (txt "20191003-105320F_20191003-105321D") = Ok true /\
  regExpMatchOne (backupRegExp true true false false) (txt "20191003-105320F_20191003-105321I") = Ok false /\
  regExpMatchOne (backupRegExp true true true true ++ txt "\.manifest\.gz$") (txt "20191003-105320F_20191003-105321D.manifest.gz") = Ok true /\
  regExpMatchOne (txt "(a") (txt "a") = Err EFormat.
Proof. vm_compute. intuition discriminate. Qed.
