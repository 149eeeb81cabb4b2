(** What the expressions for database paths and relations match. *)
From Coq Require Import String.
From Verif Require Import Base Str ArchiveIdModel RegModel RegSpec RegNameModel RegProof RegProof2 RegProof3 LinkCheckModel SelectModel SelectSpec SelectProof UnloggedModel UnloggedSpec.
Open Scope Z_scope.
Open Scope list_scope.

Definition rOpt (r : re) : re := rRepeat r 0 (Some 1%nat).
Definition forkRe : re := catAll [rChr 95; RAlt (catAll (map rChr (txt "fsm"))) (catAll (map rChr (txt "vm")))].
Definition segRe : re := catAll [rChr 46; rDigits].
Definition relPieces : list re := [rDigits; rOpt forkRe; rOpt segRe].
Definition dataRe : re := catAll (map rChr (txt "pg_data/") ++ [RAlt (catAll (map rChr (txt "global"))) (catAll (map rChr (txt "base/") ++ [rDigits]))]).
Definition spcPieces (tid : str) : list re := (map rChr (txt "pg_tblspc/") ++ [rDigits] ++ map rChr (txt "/")) ++ map patRe tid ++ (map rChr (txt "/") ++ [rDigits]).
Definition dbRe (tid : str) : re := RAlt dataRe (seqRe (rev (spcPieces tid))).

Definition dbHead : str := txt "^(pg_data/(global|base/[0-9]+)|pg_tblspc/[0-9]+/".
Definition dbTail : str := txt "/[0-9]+)$".
Definition relTail : str := txt "/[0-9]+)/" ++ relationPart ++ txt "$".

Lemma db_head fuel t : parse (length dbHead - 8 + fuel) (dbHead ++ t) ([], []) [] =
  parse fuel t ([dataRe], rev (map rChr (txt "pg_tblspc/") ++ [rDigits] ++ map rChr (txt "/"))) [([], [RBeg])].
Proof. reflexivity. Qed.
Lemma db_tail fuel q : parse (length dbTail + S fuel) dbTail ([dataRe], q) [([], [RBeg])] = Ok [catAll [RBeg; RAlt dataRe (seqRe (rev (map rChr (txt "/") ++ [rDigits]) ++ q)); REnd]].
Proof. reflexivity. Qed.
Lemma rel_tail fuel q : parse (length relTail + S fuel) relTail ([dataRe], q) [([], [RBeg])] =
  Ok [catAll (RBeg :: (RAlt dataRe (seqRe (rev (map rChr (txt "/") ++ [rDigits]) ++ q)) :: map rChr (txt "/") ++ relPieces) ++ [REnd])].
Proof. reflexivity. Qed.
Lemma temp_re : regcomp tempRelationExp = Ok [catAll (RBeg :: (map rChr (txt "t") ++ [rDigits] ++ map rChr (txt "_") ++ relPieces) ++ [REnd])].
Proof. reflexivity. Qed.

Lemma spc_rev tid : rev (map rChr (txt "/") ++ [rDigits]) ++ rev (map patRe tid) ++ rev (map rChr (txt "pg_tblspc/") ++ [rDigits] ++ map rChr (txt "/")) = rev (spcPieces tid).
Proof. unfold spcPieces. rewrite (rev_app_distr (map rChr (txt "pg_tblspc/") ++ [rDigits] ++ map rChr (txt "/"))), (rev_app_distr (map patRe tid)), <- app_assoc. reflexivity. Qed.
Lemma dbPath_re tid : forallb patChar tid = true -> regcomp (dbPathExp tid) = Ok [catAll (RBeg :: [dbRe tid] ++ [REnd])].
Proof.
  intros H. unfold regcomp, dbPathExp, dbPathPart.
  change (txt "^" ++ (txt "(pg_data/(global|base/[0-9]+)|pg_tblspc/[0-9]+/" ++ tid ++ txt "/[0-9]+)") ++ txt "$") with (dbHead ++ (tid ++ txt "/[0-9]+)") ++ txt "$").
  rewrite <- app_assoc. change (txt "/[0-9]+)" ++ txt "$") with dbTail. rewrite !app_length.
  replace (S (length dbHead + (length tid + length dbTail)))%nat with (length dbHead - 8 + (length tid + (length dbTail + 9)))%nat by (change (length dbHead) with 48%nat; lia).
  rewrite db_head.
  rewrite parse_pats by exact H. rewrite db_tail. cbn [fst snd]. rewrite spc_rev. reflexivity.
Qed.
Lemma relation_re tid : forallb patChar tid = true -> regcomp (relationExp tid) = Ok [catAll (RBeg :: (dbRe tid :: map rChr (txt "/") ++ relPieces) ++ [REnd])].
Proof.
  intros H. unfold regcomp, relationExp, dbPathPart.
  change (txt "^" ++ (txt "(pg_data/(global|base/[0-9]+)|pg_tblspc/[0-9]+/" ++ tid ++ txt "/[0-9]+)") ++ txt "/" ++ relationPart ++ txt "$")
    with (dbHead ++ (tid ++ txt "/[0-9]+)") ++ txt "/" ++ relationPart ++ txt "$").
  rewrite <- app_assoc. change (txt "/[0-9]+)" ++ txt "/" ++ relationPart ++ txt "$") with relTail. rewrite !app_length.
  replace (S (length dbHead + (length tid + length relTail)))%nat with (length dbHead - 8 + (length tid + (length relTail + 9)))%nat by (change (length dbHead) with 48%nat; lia).
  rewrite db_head.
  rewrite parse_pats by exact H. rewrite rel_tail. cbn [fst snd]. rewrite spc_rev. reflexivity.
Qed.

(** The languages *)
Lemma lang_only r L : lang r L -> lang (catAll [r]) L.
Proof.
  intros H. eapply lang_ext; [exact (lang_one [] _ lang_eps _ _ H)|]. intros s. split; [intros (a & b & -> & Ha & ->); now rewrite app_nil_r | intros Hs; exists s, []; rewrite app_nil_r; auto].
Qed.
Lemma lang_data : lang dataRe (fun p => p = txt "pg_data/global" \/ exists d, isId d /\ p = txt "pg_data/base/" ++ d).
Proof.
  unfold dataRe. eapply lang_ext.
  - apply lang_catApp; [apply lang_lit|]. apply lang_only, lang_alt; [apply lang_lit|]. apply lang_catApp; [apply lang_lit | apply lang_only, lang_digits].
  - intros s. split.
    + intros (a & b & -> & -> & [-> | (c & d & -> & -> & Hd)]); [left; reflexivity | right; exists d; split; [exact Hd | reflexivity]].
    + intros [-> | (d & Hd & ->)]; (eexists; eexists; split; [| split; [reflexivity|]]); [| left; reflexivity | | right; eexists; exists d; split; [reflexivity | split; [reflexivity | exact Hd]]]; reflexivity.
Qed.
Lemma lang_spc tid : lang (seqRe (rev (spcPieces tid))) (fun p => exists o t d, isId o /\ fits tid t /\ isId d /\ p = txt "pg_tblspc/" ++ o ++ txt "/" ++ t ++ txt "/" ++ d).
Proof.
  intros b m a. rewrite seqRe_rev. revert b m a. unfold spcPieces. eapply lang_ext.
  - apply lang_catApp; [apply lang_catApp; [apply lang_lit | apply lang_catApp; [apply lang_only, lang_digits | apply lang_lit]]|].
    apply lang_catApp; [apply lang_pats|]. apply lang_catApp; [apply lang_lit | apply lang_only, lang_digits].
  - intros s. split.
    + intros (x & y & -> & (x1 & x2 & -> & -> & (o & x3 & -> & Ho & ->)) & (t & y2 & -> & Ht & (y3 & d & -> & -> & Hd))). exists o, t, d. rewrite <- !app_assoc. auto.
    + intros (o & t & d & Ho & Ht & Hd & ->). exists (txt "pg_tblspc/" ++ o ++ txt "/"), (t ++ txt "/" ++ d). split; [rewrite <- !app_assoc; reflexivity|]. split.
      * exists (txt "pg_tblspc/"), (o ++ txt "/"). split; [reflexivity|]. split; [reflexivity|]. exists o, (txt "/"). auto.
      * exists t, (txt "/" ++ d). split; [reflexivity|]. split; [exact Ht|]. exists (txt "/"), d. auto.
Qed.
Lemma lang_db tid : lang (dbRe tid) (isDbPath tid).
Proof. eapply lang_ext; [apply lang_alt; [apply lang_data | apply lang_spc]|]. intros s. unfold isDbPath. tauto. Qed.
Lemma lang_rel : lang (catAll relPieces) (then_ isId relationSuffix).
Proof.
  unfold relPieces. apply lang_one; [| exact lang_digits]. eapply lang_ext.
  - apply lang_one; [apply lang_only, lang_option|]; [unfold segRe; apply lang_one; [apply lang_only, lang_digits | apply lang_chr] |].
    apply lang_option. unfold forkRe. apply lang_one; [apply lang_only, lang_alt; apply lang_lit | apply lang_chr].
  - intros s. unfold relationSuffix. split.
    + intros (f & g & -> & Hf & Hg). exists f, g. split; [reflexivity|]. split.
      * destruct Hf as [-> | (a & b & -> & -> & [-> | ->])]; cbn [In]; auto.
      * destruct Hg as [-> | (a & b & -> & -> & Hb)]; [now left | right; exists b; split; [exact Hb | reflexivity]].
    + intros (f & g & -> & Hf & Hg). exists f, g. split; [reflexivity|]. split.
      * cbn [In] in Hf. destruct Hf as [<- | [<- | [<- | []]]]; [now left | right; exists [95], (txt "fsm"); auto | right; exists [95], (txt "vm"); auto].
      * destruct Hg as [-> | (n & Hn & ->)]; [now left | right; exists [46], n; auto].
Qed.

Lemma dbPath_match tid p : forallb patChar tid = true -> regExpMatchOne (dbPathExp tid) p = Ok true <-> isDbPath tid p.
Proof. intros H. rewrite (proj1 (matchOne_spec _ _ p (dbPath_re tid H))). apply found_pieces, lang_only, lang_db. Qed.
Lemma temp_match n : regExpMatchOne tempRelationExp n = Ok true <-> tempRelation n.
Proof.
  rewrite (proj1 (matchOne_spec _ _ n temp_re)).
  rewrite (found_pieces _ _ n (lang_catApp _ _ _ _ (lang_lit (txt "t")) (lang_catApp _ _ _ _ (lang_only _ _ lang_digits) (lang_catApp _ _ _ _ (lang_lit (txt "_")) lang_rel)))).
  unfold tempRelation. split.
  - intros (a & s & -> & -> & (b & s2 & -> & Hb & (c & s3 & -> & -> & (id & x & -> & Hi & Hx)))). exists b, id, x. auto.
  - intros (b & id & x & Hb & Hi & Hx & ->). exists (txt "t"), (b ++ txt "_" ++ id ++ x). split; [reflexivity|]. split; [reflexivity|]. exists b, (txt "_" ++ id ++ x). split; [reflexivity|]. split; [exact Hb|].
    exists (txt "_"), (id ++ x). split; [reflexivity|]. split; [reflexivity|]. exists id, x. auto.
Qed.
Lemma relation_new tid : forallb patChar tid = true -> exists r, regExpNew (relationExp tid) = Ok r /\ forall f, regExpMatch r f = true <-> exists p id, relation tid f p id.
Proof.
  intros H. unfold regExpNew. rewrite (relation_re tid H). cbn [bind altRe]. eexists. split; [reflexivity|]. intros f. unfold regExpMatch. rewrite regexec_spec.
  rewrite (found_pieces _ _ f (lang_one _ _ (lang_catApp _ _ _ _ (lang_lit (txt "/")) lang_rel) _ _ (lang_db tid))). unfold relation. split.
  - intros (p & s & -> & Hp & (a & s2 & -> & -> & (id & x & -> & Hi & Hx))). exists p, id. split; [exact Hp|]. split; [exact Hi|]. exists x. auto.
  - intros (p & id & Hp & Hi & x & Hx & ->). exists p, (txt "/" ++ id ++ x). split; [reflexivity|]. split; [exact Hp|]. exists (txt "/"), (id ++ x). split; [reflexivity|]. split; [reflexivity|]. exists id, x. auto.
Qed.
