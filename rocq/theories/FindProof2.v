(** Proofs about the check for WAL at the end of a backup. *)
From Coq Require Import Permutation Sorting String.
From Verif Require Import Base Str ConvertModel EncodeModel EncodeSpec EncodeProof LsnModel LsnSpec LsnProof RegNameModel SpoolModel SpoolProof PushModel PushSpec PushProof WaitModel BuildModel FindModel FindSpec FindProof.
Open Scope Z_scope.
Open Scope list_scope.

Lemma segment_24 tl size b w : segmentIs tl size b w -> seg24 w.
Proof.
  intros (t & x & y & -> & (L1 & F1 & _) & (L2 & F2 & _) & (L3 & F3 & _)). split; [rewrite !app_length; lia|].
  assert (G : forall s, Forall upperHex s -> Forall (fun c => 48 <= c <= 70) s) by (intros s F; eapply Forall_impl; [|exact F]; unfold upperHex; cbv beta; intros; lia).
  apply Forall_app; split; [|apply Forall_app; split]; now apply G.
Qed.

(** ** The type of compression from the name *)
Lemma ends_app (x t e : str) : (List.length e <= List.length t)%nat -> strEndsWith (x ++ t) e = strEndsWith t e.
Proof.
  intros L. unfold strEndsWith. rewrite app_length. replace (List.length x + List.length t - List.length e)%nat with (List.length x + (List.length t - List.length e))%nat by lia.
  rewrite skipn_app, skipn_all2 by lia. replace (List.length x + (List.length t - List.length e) - List.length x)%nat with (List.length t - List.length e)%nat by lia. cbn [app].
  f_equal. destruct (Nat.leb_spec (List.length e) (List.length t)), (Nat.leb_spec (List.length e) (List.length x + List.length t)); lia || reflexivity.
Qed.
Lemma sum_tail sum : sum40 sum -> exists u a b c d, sum = u ++ [a; b; c; d] /\ 48 <= a /\ 48 <= b /\ 48 <= c /\ 48 <= d.
Proof.
  intros (L & F). exists (firstn 36 sum). assert (E : List.length (skipn 36 sum) = 4%nat) by (rewrite skipn_length; lia).
  assert (F' : Forall (fun c => 48 <= c <= 102) (skipn 36 sum)) by (rewrite <- (firstn_skipn 36 sum) in F; now apply Forall_app in F).
  destruct (skipn 36 sum) as [|a [|b [|c [|d [|e r]]]]] eqn:S; try discriminate. inversion F' as [|? ? Fa F1]; subst. inversion F1 as [|? ? Fb F2]; subst. inversion F2 as [|? ? Fc F3]; subst. inversion F3 as [|? ? Fd F4]; subst.
  exists a, b, c, d. split; [now rewrite <- S, firstn_skipn|]. lia.
Qed.
Lemma from_name x sum c : sum40 sum -> ctypeFromName (x ++ sum ++ ctypeExt c) = c.
Proof.
  intros S. destruct (sum_tail sum S) as (u & h1 & h2 & h3 & h4 & -> & B1 & B2 & B3 & B4).
  assert (E : forall y, 48 <= y -> (46 =? y) = false /\ (y =? 46) = false) by (intros; split; apply Z.eqb_neq; lia). destruct (E h1 B1) as (E1 & E1'), (E h2 B2) as (E2 & E2'), (E h3 B3) as (E3 & E3'), (E h4 B4) as (E4 & E4').
  unfold ctypeFromName. rewrite <- (app_assoc u), app_assoc. cbn [filter].
  change (ctypeExt CBz2) with [46;98;122;50]. change (ctypeExt CGz) with [46;103;122]. change (ctypeExt CLz4) with [46;108;122;52]. change (ctypeExt CZst) with [46;122;115;116]. change (ctypeExt CXz) with [46;120;122].
  rewrite (ends_app _ _ [46;98;122;50]), (ends_app _ _ [46;103;122]), (ends_app _ _ [46;108;122;52]), (ends_app _ _ [46;122;115;116]), (ends_app _ _ [46;120;122]) by (rewrite app_length; cbn [List.length]; lia).
  destruct c; [change (ctypeExt CNone) with (@nil Z)|change (ctypeExt CBz2) with [46;98;122;50]|change (ctypeExt CGz) with [46;103;122]|change (ctypeExt CLz4) with [46;108;122;52]|change (ctypeExt CZst) with [46;122;115;116]|change (ctypeExt CXz) with [46;120;122]]; cbn [app]; unfold strEndsWith; cbn [List.length Nat.leb Nat.sub skipn andb strEqb]; unfold strEqb; cbn [strCmp];
    rewrite ?Z.compare_refl; repeat match goal with H : (?y =? 46) = false |- context [?y ?= 46] => rewrite Z.eqb_compare in H; destruct (y ?= 46); [discriminate| |] end; reflexivity.
Qed.
Lemma ext_type e : isExt e -> exists c, e = ctypeExt c.
Proof.
  unfold isExt. intros H. repeat (destruct H as [<-|H]; [first [exists CNone; reflexivity | exists CGz; reflexivity | exists CLz4; reflexivity | exists CZst; reflexivity | exists CXz; reflexivity | exists CBz2; reflexivity]|]). destruct H.
Qed.

(** ** A copy *)
Lemma file_sum seg sum file : seg24 seg -> sum40 sum -> segmentFile seg sum file -> exists c, file = seg ++ 45 :: sum ++ ctypeExt c /\ ctypeFromName file = c /\ (65 <= List.length file)%nat /\ firstn 40 (skipn 25 file) = sum.
Proof.
  intros (L & F) S (s & ext & S24 & X & [(<- & ->)|(E & _)]).
  2:{ exfalso. apply (f_equal (@List.length Z)) in E. rewrite app_length in E. destruct S24. cbn in E. lia. }
  destruct (ext_type _ X) as (c & ->). exists c. split; [reflexivity|]. split; [|split].
  - replace (seg ++ 45 :: sum ++ ctypeExt c) with ((seg ++ [45]) ++ sum ++ ctypeExt c) by (rewrite <- app_assoc; reflexivity). now apply from_name.
  - destruct S as (S & _). rewrite app_length. cbn [List.length]. rewrite app_length. lia.
  - destruct S as (S & _). rewrite skipn_app, L, skipn_all2 by lia. cbn [Nat.sub skipn app]. rewrite firstn_app, S, Nat.sub_diag, firstn_O, app_nil_r, firstn_all2 by lia. reflexivity.
Qed.
Lemma sum_chars sum : sum40 sum -> Forall (okChar true) sum.
Proof. intros (_ & F). eapply Forall_impl; [|exact F]. cbv beta. unfold okChar. intros; lia. Qed.

(** What is copied, in the words of the properties *)
Definition copied (b : bdata) (seg file : str) (c : wcopy) : Prop :=
  exists sum fs, sum40 sum /\ segmentFile seg sum file /\ wfHex sum /\
    c = mkWcopy file (bdLabel b ++ 47 :: (txt "pg_data/" ++ pgWalPath (bdVersion b) ++ 47 :: seg) ++ ctypeExt (bdCompress b)) fs (txt "pg_data/" ++ pgWalPath (bdVersion b) ++ 47 :: seg)
          (Z.land (bdMode b) 420) (bdUser b) (bdGroup b) (bdSize b) (bdTimestamp b) (hexPairs sum) /\
    fs = FDecrypt :: (if ctypeEqb (ctypeFromName file) (bdCompress b) then []
                      else (match ctypeFromName file with CNone => [] | a => [FDecompress a] end) ++ (match bdCompress b with CNone => [] | a => [FCompress a] end)) ++ [FEncrypt].

Lemma hex_err sc s e : decodeHex sc s = Err e -> e = EFormat.
Proof.
  unfold decodeHex, validateHex. destruct (negb _); [cbn; congruence|]. induction s as [|c s IH]; [discriminate|]. cbn [validateHexLoop].
  destruct (lookupChar sc decodeHexLookup c) as [v|e'|] eqn:E; cbn [bind]; [|unfold lookupChar in E; destruct (_ && _) in E; discriminate|discriminate].
  destruct (v =? -1); [cbn [bind]; congruence|]. intros H. destruct (validateHexLoop sc s); cbn [bind] in *; [discriminate| |discriminate]. auto.
Qed.
Lemma needs_is present c f : needs present c f = match c with CNone => Ok [] | _ => if present c then Ok [f] else Err EOptionInvalidValue end.
Proof. reflexivity. Qed.
Lemma copy_is present b seg file r : seg24 seg -> fileOf seg file -> copySegment present b seg file = r ->
  match r with
  | Ok c => copied b seg file c
  | Err e => (e = EFormat /\ exists sum, segmentFile seg sum file /\ ~ wfHex sum) \/ (e = EOptionInvalidValue /\ exists c, c <> CNone /\ present c = false /\ (c = ctypeFromName file \/ c = bdCompress b))
  | UB => False
  end.
Proof.
  intros Sg (sum & S & Sf) <-. destruct (file_sum _ _ _ Sg S Sf) as (c & E & T & L & Sum). unfold copySegment. destruct (Nat.ltb_spec (List.length file) 65); [lia|]. rewrite Sum.
  pose proof (decodeHex_spec true sum (sum_chars _ S)) as D.
  assert (N : decodeHex true sum <> UB). { unfold decodeHex. pose proof (validateHex_noUB true sum (sum_chars _ S)). destruct (validateHex true sum); [discriminate|discriminate|congruence]. }
  set (F := copyFilters present (ctypeFromName file) (bdCompress b)).
  assert (HF : match F with
               | Ok fs => fs = FDecrypt :: (if ctypeEqb (ctypeFromName file) (bdCompress b) then [] else (match ctypeFromName file with CNone => [] | a => [FDecompress a] end) ++ (match bdCompress b with CNone => [] | a => [FCompress a] end)) ++ [FEncrypt]
               | Err e => e = EOptionInvalidValue /\ exists c, c <> CNone /\ present c = false /\ (c = ctypeFromName file \/ c = bdCompress b)
               | UB => False end).
  { unfold F, copyFilters. destruct (ctypeEqb (ctypeFromName file) (bdCompress b)); cbn [negb bind]; [reflexivity|]. rewrite !needs_is.
    destruct (ctypeFromName file) eqn:Ea; cbn [bind]; try (destruct (present _) eqn:Pa; cbn [bind]; [|split; [reflexivity|]; eexists; split; [|split; [exact Pa|left; reflexivity]]; discriminate]).
    all: destruct (bdCompress b) eqn:Eb; cbn [bind app]; try reflexivity; destruct (present _) eqn:Pb in |- *; cbn [bind app]; try reflexivity; try (split; [reflexivity|]; eexists; split; [|split; [exact Pb|right; reflexivity]]; discriminate). }
  clearbody F. destruct F as [fs|e|]; cbn [bind]; [|right; exact HF|destruct HF].
  destruct (decodeHex true sum) as [bs|e|] eqn:Ed; cbn [bind]; [|left; split; [eapply hex_err; exact Ed|]; exists sum; split; [exact Sf|]; intros W; destruct (D (hexPairs sum)) as (_ & D2); specialize (D2 (conj W eq_refl)); discriminate|congruence].
  destruct (proj1 (D bs) eq_refl) as (W & ->). exists sum, fs. auto.
Qed.

(** ** All segments *)
Section Find.
Variable dir : nat -> str -> list str.
Variable now : nat -> Z.
Variable present : ctype -> bool.

(** The file was found for the segment *)
Definition located (single : bool) (n : nat) (seg file : str) : Prop :=
  exists j, (j < n)%nat /\ fileOf seg file /\ In file (dir j (firstn 16 seg)) /\ (single = true \/ clean (dir j (firstn 16 seg)) seg -> oneFile (dir j (firstn 16 seg)) seg file).
Lemma located_le s n n' seg file : (n <= n')%nat -> located s n seg file -> located s n' seg file.
Proof. intros L (j & J & H). exists j. split; [lia|exact H]. Qed.

Lemma check_all fuel b segs : forall f last n r n', Forall seg24 segs -> StronglySorted slt segs -> kept dir f n last -> fdList f = None \/ Forall (slt last) segs -> 10 <= fdTimeout f < 2 ^ 63 ->
  checkSegments dir now fuel present b f segs n = (r, n') ->
  (n <= n')%nat /\
  match r with
  | Ok (fs, cs) => map fst fs = segs /\ (forall seg file, In (seg, file) fs -> located (fdSingle f) n' seg file) /\ (if bdCopy b then Forall2 (fun sf c => copied b (fst sf) (snd sf) c) fs cs else cs = [])
  | Err e => exists seg, In seg segs /\
      ((e = EArchiveDuplicate /\ exists j, (j < n')%nat /\ twoFiles (dir j (firstn 16 seg)) seg) \/
       (e = EArchiveTimeout /\ exists i j, n' = (j + 2)%nat /\ (n <= i < j)%nat /\ noFile (dir j (firstn 16 seg)) seg /\ fdTimeout f <= (now (S j) - now i) mod 2 ^ 64) \/
       (bdCopy b = true /\ exists file, located (fdSingle f) n' seg file /\ ((e = EFormat /\ exists sum, segmentFile seg sum file /\ ~ wfHex sum) \/ (e = EOptionInvalidValue /\ exists c, c <> CNone /\ present c = false /\ (c = ctypeFromName file \/ c = bdCompress b)))))
  | UB => (forall i, now i < now (S i)) -> (forall i j, now i - now j < 2 ^ 64) -> Z.of_nat fuel < fdTimeout f + 3
  end.
Proof.
  induction segs as [|seg segs IH]; intros f last n r n' F24 St K Lt T E; cbn [checkSegments] in E.
  { injection E as <- <-. split; [lia|]. split; [reflexivity|]. split; [intros ? ? []|]. destruct (bdCopy b); constructor. }
  inversion F24 as [|? ? Sg F24']; subst. inversion St as [|? ? St' Hs]; subst.
  destruct (walSegmentFind dir now fuel f seg n) as [[r1 f1] n1] eqn:W.
  assert (Lt1 : fdList f = None \/ slt last seg) by (destruct Lt as [Lt|Lt]; [now left|right; now inversion Lt]).
  destruct (find_one dir now fuel f seg n last r1 f1 n1 Sg K Lt1 T W) as (K1 & L1 & S1 & T1 & O).
  destruct r1 as [[file|]|e|].
  - assert (LF : located (fdSingle f) n1 seg file) by exact O. assert (Fo : fileOf seg file) by (destruct LF as (j & _ & LF & _); exact LF).
    set (C := if bdCopy b then let* c := copySegment present b seg file in Ok [c] else Ok []) in E.
    assert (HC : match C with
                 | Ok cs => if bdCopy b then exists c, cs = [c] /\ copied b seg file c else cs = []
                 | Err e => bdCopy b = true /\ ((e = EFormat /\ exists sum, segmentFile seg sum file /\ ~ wfHex sum) \/ (e = EOptionInvalidValue /\ exists c, c <> CNone /\ present c = false /\ (c = ctypeFromName file \/ c = bdCompress b)))
                 | UB => False end).
    { unfold C. destruct (bdCopy b); [|reflexivity]. pose proof (copy_is present b seg file _ Sg Fo eq_refl) as Q. destruct (copySegment present b seg file); cbn [bind]; eauto. }
    clearbody C. destruct C as [cs|e|].
    + destruct (checkSegments dir now fuel present b f1 segs n1) as [r2 n2] eqn:R. injection E as <- <-.
      destruct (IH f1 seg n1 r2 n2 F24' St' K1 ltac:(right; exact Hs) ltac:(lia) R) as (L2 & Q). rewrite S1, T1 in Q. split; [lia|]. destruct r2 as [[fs cs']|e|]; cbn [bind fst snd].
      * destruct Q as (Q1 & Q2 & Q3). split; [cbn; now rewrite Q1|]. split.
        { intros s fl [H|H]; [injection H as <- <-; eapply located_le; eauto|now apply Q2]. }
        destruct (bdCopy b); [destruct HC as (c & -> & HC); cbn [app]; constructor; assumption|subst; reflexivity].
      * destruct Q as (s & Q1 & Q2). exists s. split; [now right|]. destruct Q2 as [Q2|[(Q2 & i & j & Q3 & Q4 & Q5)|Q2]]; [now left|right; left; split; [exact Q2|]; exists i, j; split; [exact Q3|]; split; [lia|exact Q5]|right; now right].
      * exact Q.
    + injection E as <- <-. split; [exact L1|]. exists seg. split; [now left|]. right. right. destruct HC as (HC & H). split; [exact HC|]. exists file. split; [exact LF|exact H].
    + destruct HC.
  - destruct O.
  - injection E as <- <-. split; [exact L1|]. exists seg. split; [now left|]. destruct O as [O|(O1 & j & O2 & O3)]; [now left|]. right. left. split; [exact O1|]. exists n, j. split; [exact O2|]. destruct O3 as (O3 & O4). split; [lia|exact O4].
  - injection E as <- <-. split; [exact L1|]. intros M Sm. apply O; [exact M|]. intros i. apply Sm.
Qed.
End Find.
