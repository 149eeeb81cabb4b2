(** Proofs for HTTP responses: what the headers say. *)
From Verif Require Import Base Str ConvertModel NumModel NumSpec NumProof SpoolModel SpoolSpec SpoolProof TimelineProof RegNameModel OptSizeModel HttpModel HttpSpec HttpProof HttpProof2 HttpProof3 HttpProof4.
From Coq Require Import String List.
Open Scope Z_scope. Open Scope list_scope.

Notation TE := (txt "transfer-encoding").
Notation CL := (txt "content-length").
Notation CO := (txt "connection").
Lemma keys_differ : TE <> CL /\ TE <> CO /\ CL <> CO.
Proof. repeat split; discriminate. Qed.
Lemma upd_inv r k v r1 : upd r k v = Ok r1 <->
  (k = TE /\ map lowerCase v = txt "chunked" /\ r1 = mkResp true (rSizeSet r) (rSize r) (rRemaining r) (rClose r) (rEof r)) \/
  (k = CL /\ exists n, sizeText v n /\ r1 = mkResp (rChunked r) true n n (rClose r) (rEof r)) \/
  (k = CO /\ map lowerCase v = txt "close" /\ r1 = mkResp (rChunked r) (rSizeSet r) (rSize r) (rRemaining r) true (rEof r)) \/
  (k <> TE /\ k <> CL /\ ~ (k = CO /\ map lowerCase v = txt "close") /\ r1 = r).
Proof.
  destruct keys_differ as (D1 & D2 & D3). unfold upd. rewrite !lower_is. destruct (strEqb k TE) eqn:E1.
  { apply strEqb_eq in E1. subst k. replace (strEqb TE CL) with false by reflexivity. replace (strEqb TE CO) with false by reflexivity. cbn [andb bind].
    destruct (strEqb (map lowerCase v) (txt "chunked")) eqn:E; cbn [bind]; split.
    - intros [= <-]. left. apply strEqb_eq in E. auto.
    - intros [(_ & _ & ->)|[(K & _)|[(K & _)|(K & _)]]]; [reflexivity|congruence..].
    - discriminate.
    - intros [(_ & K & _)|[(K & _)|[(K & _)|(K & _)]]]; [|congruence..]. apply strEqb_eq in K. congruence. }
  assert (N1 : k <> TE) by (intros K; apply strEqb_eq in K; congruence). cbn [bind]. destruct (strEqb k CL) eqn:E2.
  { apply strEqb_eq in E2. subst k. replace (strEqb CL CO) with false by reflexivity. cbn [andb]. destruct (cvtZToUInt64 10 (cz v)) as [n| |] eqn:C; cbn [bind]; split.
    - intros [= <-]. right. left. split; [reflexivity|]. exists n. split; [now apply size_text|reflexivity].
    - intros [(K & _)|[(_ & m & S & ->)|[(K & _)|(_ & K & _)]]]; [congruence| |congruence..]. apply size_text in S. congruence.
    - discriminate.
    - intros [(K & _)|[(_ & m & S & _)|[(K & _)|(_ & K & _)]]]; [congruence| |congruence..]. apply size_text in S. congruence.
    - discriminate.
    - intros [(K & _)|[(_ & m & S & _)|[(K & _)|(_ & K & _)]]]; [congruence| |congruence..]. apply size_text in S. congruence. }
  assert (N2 : k <> CL) by (intros K; apply strEqb_eq in K; congruence). cbn [bind]. destruct (strEqb k CO && strEqb (map lowerCase v) (txt "close")) eqn:E3.
  - apply andb_true_iff in E3. rewrite !strEqb_eq in E3. split.
    + intros [= <-]. right. right. left. tauto.
    + intros [(K & _)|[(K & _)|[(_ & _ & ->)|(_ & _ & K & _)]]]; [congruence..|reflexivity|contradiction].
  - assert (N3 : ~ (k = CO /\ map lowerCase v = txt "close")) by (intros (K & L); apply strEqb_eq in K; apply strEqb_eq in L; rewrite K, L in E3; discriminate). split.
    + intros [= <-]. right. right. right. tauto.
    + intros [(K & _)|[(K & _)|[(K & L & _)|(_ & _ & K & ->)]]]; [congruence..|exfalso; tauto|reflexivity].
Qed.
Lemma in_snoc (X w k v : str) hs : In (X, w) (hs ++ [(k, v)]) <-> In (X, w) hs \/ (k = X /\ v = w).
Proof. rewrite in_app_iff. cbn [In]. split; intros [H|H]; auto; [destruct H as [H|[]]; injection H as -> ->; auto|]. destruct H as (-> & ->). auto. Qed.
Lemma ex_snoc (X k v : str) hs : (exists w, In (X, w) (hs ++ [(k, v)])) <-> (exists w, In (X, w) hs) \/ k = X.
Proof.
  split.
  - intros (w & H). apply in_snoc in H. destruct H as [H|(H & _)]; eauto.
  - intros [(w & H)|H]; [exists w|exists v]; apply in_snoc; auto.
Qed.
Lemma framing_snoc hs v10 r k v r1 : framing hs v10 r -> upd r k v = Ok r1 -> framing (hs ++ [(k, v)]) v10 r1.
Proof.
  destruct keys_differ as (D1 & D2 & D3). unfold framing. intros (F1 & F2 & F3 & F4 & F5 & F6 & F7) U. rewrite !ex_snoc. apply upd_inv in U.
  assert (KEEP : k <> CL -> (rSize r = 0 /\ (forall w, ~ In (CL, w) (hs ++ [(k, v)]))) \/
    (exists hs1 w hs2, hs ++ [(k, v)] = hs1 ++ (CL, w) :: hs2 /\ (forall u, ~ In (CL, u) hs2) /\ sizeText w (rSize r))).
  { intros NK. destruct F5 as [(S & F5)|(hs1 & w & hs2 & -> & N & S)].
    - left. split; [exact S|]. intros w I. apply in_snoc in I. destruct I as [I|(I & _)]; [now apply F5 in I|congruence].
    - right. exists hs1, w, (hs2 ++ [(k, v)]). split; [now rewrite <- app_assoc|]. split; [|exact S]. intros u I. apply in_snoc in I. destruct I as [I|(I & _)]; [now apply N in I|congruence]. }
  assert (K2 : (k = TE -> map lowerCase v = txt "chunked") -> forall w, In (TE, w) (hs ++ [(k, v)]) -> map lowerCase w = txt "chunked").
  { intros H w I. apply in_snoc in I. destruct I as [I|(E & <-)]; auto. }
  assert (K4 : (k = CL -> exists n, sizeText v n) -> forall w, In (CL, w) (hs ++ [(k, v)]) -> exists n, sizeText w n).
  { intros H w I. apply in_snoc in I. destruct I as [I|(E & <-)]; auto. }
  assert (K7 : ~ (k = CO /\ map lowerCase v = txt "close") -> (exists w, In (CO, w) (hs ++ [(k, v)]) /\ map lowerCase w = txt "close") <-> (exists w, In (CO, w) hs /\ map lowerCase w = txt "close")).
  { intros H. split; intros (w & I & L).
    - apply in_snoc in I. destruct I as [I|(E & <-)]; [eauto|]. exfalso. auto.
    - exists w. split; [apply in_snoc; auto|exact L]. }
  destruct U as [(-> & L & ->)|[(-> & n & S & ->)|[(-> & L & ->)|(N1 & N2 & N3 & ->)]]]; cbn [rChunked rSizeSet rSize rRemaining rClose].
  - split; [tauto|]. split; [auto|]. split; [rewrite F3; intuition congruence|]. split; [apply K4; congruence|]. split; [apply KEEP; congruence|]. split; [exact F6|]. rewrite K7 by (intros (K & _); congruence). exact F7.
  - split; [rewrite F1; intuition congruence|]. split; [apply K2; congruence|]. split; [tauto|]. split; [eauto|].
    split; [right; exists hs, v, []; split; [reflexivity|]; split; [intros u []|exact S]|]. split; [reflexivity|]. rewrite K7 by (intros (K & _); congruence). exact F7.
  - split; [rewrite F1; intuition congruence|]. split; [apply K2; congruence|]. split; [rewrite F3; intuition congruence|]. split; [apply K4; congruence|]. split; [apply KEEP; congruence|]. split; [exact F6|].
    split; [|reflexivity]. intros _. right. exists v. split; [apply in_snoc; auto|exact L].
  - split; [rewrite F1; intuition congruence|]. split; [apply K2; congruence|]. split; [rewrite F3; intuition congruence|]. split; [apply K4; congruence|]. split; [apply KEEP; congruence|]. split; [exact F6|].
    rewrite K7 by exact N3. exact F7.
Qed.
Lemma updAll_framing hs v10 : forall r1, updAll (mkResp false false 0 0 v10 false) hs = Ok r1 -> framing hs v10 r1 /\ rEof r1 = false.
Proof.
  induction hs as [|[k v] hs IH] using rev_ind; intros r1.
  - intros [= <-]. split; [|reflexivity]. unfold framing. cbn. repeat split; try discriminate; try (intros (v & [])); try contradiction; auto. intros [H|(v & [] & _)]. exact H.
  - rewrite updAll_snoc. destruct (updAll _ hs) as [r0| |] eqn:E; [|discriminate..]. cbn [bind]. intros U. destruct (IH r0 eq_refl) as (F & E0).
    split; [eapply framing_snoc; eauto|]. apply upd_inv in U. destruct U as [(_ & _ & ->)|[(_ & n & _ & ->)|[(_ & _ & ->)|(_ & _ & _ & ->)]]]; exact E0.
Qed.
Lemma updAll_total hs v10 : (forall v, In (TE, v) hs -> map lowerCase v = txt "chunked") -> (forall v, In (CL, v) hs -> exists n, sizeText v n) ->
  exists r1, updAll (mkResp false false 0 0 v10 false) hs = Ok r1.
Proof.
  induction hs as [|[k v] hs IH] using rev_ind; intros F2 F4; [cbn; eauto|]. rewrite updAll_snoc.
  destruct IH as (r0 & ->); [intros w I; apply F2, in_snoc; auto|intros w I; apply F4, in_snoc; auto|]. cbn [bind].
  destruct (strEqb k TE) eqn:E1; [apply strEqb_eq in E1; eexists; apply upd_inv; left; split; [exact E1|]; split; [apply F2, in_snoc; auto|reflexivity]|].
  destruct (strEqb k CL) eqn:E2.
  - apply strEqb_eq in E2. destruct (F4 v) as (n & S); [apply in_snoc; auto|]. eexists. apply upd_inv. right. left. eauto.
  - destruct (strEqb k CO && strEqb (map lowerCase v) (txt "close")) eqn:E3.
    + apply andb_true_iff in E3. rewrite !strEqb_eq in E3. eexists. apply upd_inv. right. right. left. split; [apply E3|]. split; [apply E3|reflexivity].
    + exists r0. apply upd_inv. right. right. right. repeat split; try (intros K; apply strEqb_eq in K; congruence).
      intros (K & L). apply strEqb_eq in K. apply strEqb_eq in L. rewrite K, L in E3. discriminate.
Qed.
Lemma last_unique (hs1 : list (str * str)) : forall v hs2 hs3 w hs4, hs1 ++ (CL, v) :: hs2 = hs3 ++ (CL, w) :: hs4 ->
  (forall u, ~ In (CL, u) hs2) -> (forall u, ~ In (CL, u) hs4) -> v = w.
Proof.
  induction hs1 as [|x hs1 IH]; intros v hs2 hs3 w hs4 E N2 N4; destruct hs3 as [|y hs3]; cbn [app] in E; injection E as E1 E2.
  - congruence.
  - subst hs2. exfalso. apply (N2 w), in_app_iff. right. now left.
  - subst hs4. exfalso. apply (N4 v), in_app_iff. right. now left.
  - eapply IH; eauto.
Qed.
Lemma bool_iff (a b : bool) P : (a = true <-> P) -> (b = true <-> P) -> a = b.
Proof. destruct a, b; intuition congruence. Qed.
Lemma framing_det hs v10 r1 r2 : framing hs v10 r1 -> framing hs v10 r2 -> rEof r1 = rEof r2 -> r1 = r2.
Proof.
  intros (A1 & _ & A3 & _ & A5 & A6 & A7) (B1 & _ & B3 & _ & B5 & B6 & B7) E. destruct r1 as [c1 z1 s1 m1 l1 e1], r2 as [c2 z2 s2 m2 l2 e2]. cbn in *.
  assert (S : s1 = s2).
  { destruct A5 as [(S1 & N1)|(x & v & y & Ex & N1 & S1)], B5 as [(S2 & N2)|(x2 & v2 & y2 & Ex2 & N2 & S2)].
    - congruence.
    - exfalso. apply (N1 v2). rewrite Ex2. apply in_app_iff. right. now left.
    - exfalso. apply (N2 v). rewrite Ex. apply in_app_iff. right. now left.
    - rewrite Ex in Ex2. apply last_unique in Ex2; auto. subst v2. apply size_text in S1. apply size_text in S2. congruence. }
  f_equal; [eapply bool_iff; eauto|eapply bool_iff; eauto|exact S|congruence|eapply bool_iff; eauto|exact E].
Qed.
Lemma headers_spec max v10 s r rest : headerRead max (mkResp false false 0 0 v10 false) s = Ok (r, rest) <->
  exists hs, headerText max s hs rest /\ framing hs v10 r /\ rEof r = false /\ ~ (rChunked r = true /\ rSizeSet r = true).
Proof.
  unfold headerRead. split.
  - destruct (headerLoop _ _ _ _) as [[r1 s1]| |] eqn:H; [|discriminate..]. cbn [bind fst]. destruct (rChunked r1 && rSizeSet r1) eqn:B; [discriminate|]. intros [= <- <-].
    apply loop_headers in H; [|lia]. destruct H as (hs & HT & HU). apply updAll_framing in HU. exists hs. repeat split; try apply HT; try apply HU. intros (K & L). rewrite K, L in B. discriminate.
  - intros (hs & HT & HF & E & N). destruct (updAll_total hs v10) as (r1 & HU); [apply HF|apply HF|]. destruct (updAll_framing hs v10 r1 HU) as (F1 & E1).
    assert (r1 = r) by (eapply framing_det; eauto; congruence). subst r1. rewrite (proj2 (loop_headers max (S (length s)) _ s r rest ltac:(lia))); [|eauto]. cbn [bind fst].
    destruct (rChunked r && rSizeSet r) eqn:B; [|reflexivity]. apply andb_true_iff in B. contradiction.
Qed.
(** A response that is new is well formed. *)
Lemma size_nonneg hs v10 r : framing hs v10 r -> 0 <= rSize r /\ rRemaining r = rSize r.
Proof. intros (_ & _ & _ & _ & S & R & _). split; [|exact R]. destruct S as [(S & _)|(x & v & y & _ & _ & t & _ & _ & S)]; lia. Qed.
