(** Proofs for HTTP responses: content. *)
From Verif Require Import Base Str ConvertModel NumModel NumSpec NumProof SpoolModel SpoolSpec SpoolProof TimelineProof RegNameModel OptSizeModel HttpModel HttpSpec HttpProof.
From Coq Require Import String List.
Open Scope Z_scope. Open Scope list_scope.

(** * Sizes of chunks *)
Lemma trimmed_join p m r : trimmed p -> p <> [] -> r <> [] -> (forall c u, r = u ++ [c] -> ~ white c) -> trimmed (p ++ m ++ r).
Proof.
  intros (F & _) P R L. split.
  - intros c u E. destruct p as [|x p]; [contradiction|]. injection E as -> _. eapply F. reflexivity.
  - intros c u E. destruct (exists_last R) as (r0 & x & ->). rewrite !app_assoc in E. apply app_inj_tail in E. destruct E as (_ & <-). eapply L. reflexivity.
Qed.
Lemma blank_no0 b : blank b -> ~ In 0 b /\ ~ In 59 b /\ ~ In 58 b /\ ~ In 13 [].
Proof. intros B. unfold blank in B. rewrite Forall_forall in B. repeat split; try (intros K; apply B in K; unfold white in K; lia). intros []. Qed.
Lemma last_nw c x : ~ white c -> exists x1 b, c :: x = (c :: x1) ++ b /\ blank b /\ (forall d u, c :: x1 = u ++ [d] -> ~ white d).
Proof.
  intros N. destruct (lastNW (c :: x)) as (r1 & b & E & B & L). destruct r1 as [|y r1].
  - cbn in E. subst b. inversion B; contradiction.
  - injection E as <- ->. now exists r1, b.
Qed.
Lemma chunkSize_spec l n : chunkSize l = Ok n <-> sizeLine l n.
Proof.
  unfold chunkSize, sizeLine. destruct (trim_trimmed l) as (a & b & El & A & B & T). split.
  - intros H. set (h := strTrim l) in *. clearbody h. destruct (strChrZ h 59) as [i|] eqn:E.
    + apply chrZ_some in E. destruct E as (x & y & -> & N & N0 & _ & <-). rewrite first_mid in H.
      destruct (trim_trimmed x) as (a2 & b2 & Ex & A2 & B2 & _). set (t := strTrim x) in *. clearbody t. subst x.
      rewrite cz_id in H by (intros K; apply N0, in_app_iff; right; apply in_app_iff; now left).
      split; [eapply cvt64_bound; [exact H|lia]|]. apply cvtZToUInt64_spec in H; [|lia]. exists (a ++ a2), t, b2, (59 :: y ++ b).
      split; [subst l; now rewrite <- !app_assoc|]. split; [now apply Forall_app|]. split; [exact B2|]. split; [apply H|]. right. left. eauto.
    + split; [eapply cvt64_bound; [exact H|lia]|]. apply cvtZToUInt64_spec in H; [|lia]. destruct H as (U & _). destruct (cz_spec h) as (_ & [Eh|(z & Eh)]).
      * exists a, h, b, []. rewrite app_nil_r. split; [exact El|]. rewrite <- Eh in U. repeat split; auto.
      * exists a, (cz h), [], (0 :: z ++ b). split; [cbn [app]; change (0 :: z ++ b) with ((0 :: z) ++ b); rewrite (app_assoc (cz h)), <- Eh; exact El|].
        repeat split; auto; [constructor|]. right. right. eauto.
  - intros (R & a2 & num & b2 & e & -> & A2 & B2 & U & HE). destruct (unsigned_chars 16 num n) as (F & NE); [lia|exact U|].
    destruct (numChar_trimmed num F) as (TN & N0 & N59 & _ & _). assert (C : cvtZToUInt64 16 num = Ok n) by (apply cvtZToUInt64_spec; [lia|split; [exact U|apply R]]).
    destruct (blank_no0 b2 B2) as (B0 & B59 & _). destruct HE as [->|[(x & ->)|(-> & x & ->)]].
    + rewrite app_nil_r, trim_is by assumption. replace (strChrZ num 59) with (@None nat); [rewrite cz_id by exact N0; exact C|].
      symmetry. apply chrZ_none. rewrite cz_id by exact N0. exact N59.
    + destruct (last_nw 59 x) as (x1 & w & Ex & W & L); [unfold white; lia|]. rewrite Ex.
      replace (a2 ++ num ++ b2 ++ (59 :: x1) ++ w) with (a2 ++ (num ++ b2 ++ 59 :: x1) ++ w) by (now rewrite <- !app_assoc).
      rewrite trim_is; [|assumption..|apply trimmed_join; [exact TN|exact NE|discriminate|exact L]].
      assert (E : strChrZ (num ++ b2 ++ 59 :: x1) 59 = Some (length (num ++ b2))).
      { apply chrZ_some. exists (num ++ b2), x1. rewrite <- app_assoc. split; [reflexivity|]. rewrite !in_app_iff. repeat split; try tauto. lia. }
      rewrite E, app_assoc, first_mid. change (num ++ b2) with ([] ++ num ++ b2). rewrite trim_is by (assumption || constructor). now rewrite cz_id.
    + destruct (last_nw 0 x) as (x1 & w & Ex & W & L); [unfold white; lia|]. rewrite Ex. cbn [app].
      replace (a2 ++ num ++ 0 :: x1 ++ w) with (a2 ++ (num ++ 0 :: x1) ++ w) by (now rewrite <- !app_assoc).
      rewrite trim_is; [|assumption..|apply (trimmed_join num [] (0 :: x1)); [exact TN|exact NE|discriminate|exact L]].
      assert (CZ : cz (num ++ 0 :: x1) = num) by (rewrite cz_app by exact N0; cbn; apply app_nil_r).
      replace (strChrZ (num ++ 0 :: x1) 59) with (@None nat); [rewrite CZ; exact C|]. symmetry. apply chrZ_none. now rewrite CZ.
Qed.
Lemma chunkSize_err l : (exists n, chunkSize l = Ok n) \/ chunkSize l = Err EFormat.
Proof. unfold chunkSize. apply cvt64_err. Qed.

(** * Trailers *)
Lemma trailers_sound max fuel s rest : trailers max fuel s = Ok rest -> trailing max s rest /\ (length rest < length s)%nat.
Proof.
  revert s. induction fuel as [|fuel IH]; intros s; [discriminate|]. cbn [trailers]. destruct (readLine max s) as [[l s1]| |] eqn:E; [|discriminate..]. cbn [bind].
  pose proof (readLine_len _ _ _ _ E) as L. apply readLine_spec in E. destruct E as (-> & O). destruct (strTrim l) eqn:T.
  - intros [= <-]. split; [|exact L]. constructor; [exact O|]. now apply trim_blank.
  - intros H. apply IH in H. destruct H as (H & K). split; [|lia]. constructor; [exact O| |exact H]. rewrite <- trim_blank, T. discriminate.
Qed.
Lemma trailers_complete max s rest : trailing max s rest -> forall fuel, (length s < fuel)%nat -> trailers max fuel s = Ok rest.
Proof.
  induction 1 as [l rest O B|l s rest O B H IH]; intros fuel L; (destruct fuel as [|fuel]; [lia|]); cbn [trailers].
  - rewrite (proj2 (readLine_spec max (l ++ 10 :: rest) l rest)) by auto. cbn [bind]. now rewrite (proj2 (trim_blank l) B).
  - rewrite (proj2 (readLine_spec max (l ++ 10 :: s) l s)) by auto. cbn [bind]. rewrite app_length in L. cbn [length] in L.
    destruct (strTrim l) eqn:T; [now apply trim_blank in T|]. apply IH. lia.
Qed.
Lemma trailers_err max fuel s : (length s < fuel)%nat -> (exists rest, trailers max fuel s = Ok rest) \/ trailers max fuel s = Err EFileRead.
Proof.
  revert s. induction fuel as [|fuel IH]; intros s L; [lia|]. cbn [trailers]. destruct (readLine_err max s) as [([l s1] & E)|E]; rewrite E; cbn [bind]; [|now right].
  apply readLine_len in E. destruct (strTrim l); [eauto|]. apply IH. lia.
Qed.
Lemma trailers_app max fuel s rest : trailers max fuel s = Ok rest -> forall f2 q, (fuel <= f2)%nat -> trailers max f2 (s ++ q) = Ok (rest ++ q).
Proof.
  revert s. induction fuel as [|fuel IH]; intros s; [discriminate|]. cbn [trailers]. destruct (readLine max s) as [[l s1]| |] eqn:E; [|discriminate..]. cbn [bind].
  intros H f2 q L. destruct f2 as [|f2]; [lia|]. cbn [trailers]. rewrite (readLine_app _ _ q _ _ E). cbn [bind]. destruct (strTrim l); [now injection H as ->|]. apply IH; [exact H|lia].
Qed.

(** * One turn of the loop *)
Definition step (max : nat) (r : resp) (s : str) (n : nat) : res (str * resp * str) :=
  let* p := nextChunk max r s in
  let (r, s) := p : resp * str in
  let* p := readData r s n in
  let '(d, r, s) := p in
  let* p := afterData max r s in
  let (r, s) := p : resp * str in
  Ok (d, r, s).
Lemma readLoop_step max fuel r s n : readLoop max (S fuel) r s n =
  let* p := step max r s n in
  let '(d, r, s) := p in
  let n := (n - length d)%nat in
  if ((n =? 0)%nat || rEof r)%bool then Ok (d, r, s)
  else let* p := readLoop max fuel r s n in let '(d2, r, s) := p in Ok (d ++ d2, r, s).
Proof.
  cbn [readLoop]. unfold step. destruct (nextChunk max r s) as [[r1 s1]| |]; cbn [bind]; [|reflexivity..].
  destruct (readData r1 s1 n) as [[[d r2] s2]| |]; cbn [bind]; [|reflexivity..]. destruct (afterData max r2 s2) as [[r3 s3]| |]; reflexivity.
Qed.
Definition sameMode (r r' : resp) : Prop := rChunked r' = rChunked r /\ rSize r' = rSize r /\ rClose r' = rClose r.
Lemma sameMode_refl r : sameMode r r.
Proof. repeat split. Qed.
Lemma sameMode_toEnd r r' : sameMode r r' -> toEnd r' <-> toEnd r.
Proof. unfold sameMode, toEnd. intros (-> & -> & ->). tauto. Qed.
Lemma len_min n (d : str) : Z.to_nat (Z.min (Z.of_nat n) (Z.of_nat (length d))) = Nat.min n (length d).
Proof. lia. Qed.
Ltac fields := cbn [rChunked rSizeSet rSize rRemaining rClose rEof setEof setRemaining].
(** The data of a piece and what follows it. *)
Lemma readData_ok r d rest n : 0 < rRemaining r -> Z.of_nat (length d) = rRemaining r ->
  readData r (d ++ rest) n = Ok (firstn n d, setRemaining r (Z.of_nat (length (skipn n d))), skipn n d ++ rest).
Proof.
  intros P L. unfold readData. destruct (Z.ltb_spec 0 (rRemaining r)); [|lia]. rewrite <- L, len_min.
  destruct (Nat.ltb_spec (length (d ++ rest)) (Nat.min n (length d))) as [K|K]; [rewrite app_length in K; lia|].
  assert (F : firstn (Nat.min n (length d)) (d ++ rest) = firstn n d).
  { rewrite firstn_app. replace (Nat.min n (length d) - length d)%nat with 0%nat by lia. rewrite firstn_O, app_nil_r. destruct (Nat.le_ge_cases n (length d)) as [Q|Q].
    - now rewrite Nat.min_l by lia.
    - rewrite Nat.min_r by lia. now rewrite firstn_all, firstn_all2 by lia. }
  assert (S : skipn (Nat.min n (length d)) (d ++ rest) = skipn n d ++ rest).
  { rewrite skipn_app. replace (Nat.min n (length d) - length d)%nat with 0%nat by lia. cbn [skipn]. f_equal. destruct (Nat.le_ge_cases n (length d)) as [Q|Q].
    - now rewrite Nat.min_l by lia.
    - rewrite Nat.min_r by lia. now rewrite skipn_all, skipn_all2 by lia. }
  rewrite F, S. do 4 f_equal. rewrite firstn_length, skipn_length. lia.
Qed.
Lemma readData_inv r s n d r1 s1 : 0 < rRemaining r -> readData r s n = Ok (d, r1, s1) ->
  s = d ++ s1 /\ r1 = setRemaining r (rRemaining r - Z.of_nat (length d)) /\ Z.of_nat (length d) <= rRemaining r /\ (length d <= n)%nat /\ ((0 < n)%nat -> d <> []).
Proof.
  intros P. unfold readData. destruct (Z.ltb_spec 0 (rRemaining r)); [|lia]. set (k := Z.to_nat _). destruct (Nat.ltb_spec (length s) k) as [K|K]; [discriminate|].
  intros [= <- <- <-]. rewrite firstn_skipn. split; [reflexivity|]. split; [reflexivity|]. rewrite firstn_length, Nat.min_l by lia. unfold k in *. repeat split; [lia..|].
  intros N E. apply (f_equal (@length Z)) in E. rewrite firstn_length, Nat.min_l in E by lia. cbn in E. lia.
Qed.
(** Completeness: data of a chunk. *)
Lemma data_chunk max r d t s c rest n : (0 < n)%nat -> rEof r = false -> rChunked r = true -> 0 < rRemaining r -> Z.of_nat (length d) = rRemaining r -> lineOk max t ->
  chunks max s c rest ->
  exists d1 r1 s1 c1, (let* p := readData r (d ++ t ++ 10 :: s) n in let '(d, r, s) := p in let* p := afterData max r s in let (r, s) := p : resp * str in Ok (d, r, s)) = Ok (d1, r1, s1) /\
    d ++ c = d1 ++ c1 /\ left max r1 s1 c1 rest /\ sameMode r r1 /\ (length d1 <= n)%nat /\ lt (length s1) (length (d ++ t ++ 10 :: s)) /\ 0 <= rRemaining r1.
Proof.
  intros N E C P L T H. rewrite readData_ok by assumption. cbn [bind]. unfold afterData. fields.
  assert (FS : d = firstn n d ++ skipn n d) by (now rewrite firstn_skipn). destruct (Z.eqb_spec (Z.of_nat (length (skipn n d))) 0) as [Z0|Z0].
  - assert (S0 : skipn n d = []) by (destruct (skipn n d); [reflexivity|cbn in Z0; lia]). rewrite S0. cbn [app]. rewrite C, E. cbn [andb negb].
    rewrite (proj2 (readLine_spec max (t ++ 10 :: s) t s)) by auto. cbn [bind snd]. exists (firstn n d), (setRemaining r (Z.of_nat (length (@nil Z)))), s, c.
    split; [reflexivity|]. rewrite S0, app_nil_r in FS. split; [now rewrite <- FS|]. split; [apply l_chunks; auto|]. split; [repeat split|].
    split; [rewrite firstn_length; lia|]. split; [rewrite !app_length; cbn; lia|cbn; lia].
  - cbn [bind]. exists (firstn n d), (setRemaining r (Z.of_nat (length (skipn n d)))), (skipn n d ++ t ++ 10 :: s), (skipn n d ++ c).
    split; [reflexivity|]. split; [rewrite app_assoc; now rewrite <- FS|]. split; [apply l_chunk; auto; fields; lia|]. split; [repeat split|].
    split; [rewrite firstn_length; lia|]. split; [|fields; lia]. rewrite FS at 2. rewrite !app_length. assert (0 < length (firstn n d))%nat; [|lia]. rewrite firstn_length. lia.
Qed.
Lemma step_complete max r s n c rest : (0 < n)%nat -> wfResp r -> rEof r = false -> ~ toEnd r -> left max r s c rest ->
  exists d r1 s1 c1, step max r s n = Ok (d, r1, s1) /\ c = d ++ c1 /\ left max r1 s1 c1 rest /\ sameMode r r1 /\ (length d <= n)%nat /\ (length s1 < length s)%nat /\ wfResp r1.
Proof.
  intros N W E TE H. unfold step. inversion H as [s0 E0|s0 E0 T0|c0 rest0 E0 T0 C P L|s0 c0 rest0 E0 C P CH|d t s0 c0 rest0 E0 C P L T CH]; subst; try congruence; try contradiction.
  - unfold nextChunk. rewrite C. cbn [andb bind]. rewrite readData_ok by assumption. cbn [bind]. unfold afterData. fields. rewrite C. cbn [andb].
    assert (FS : c = firstn n c ++ skipn n c) by (now rewrite firstn_skipn). destruct (Z.eqb_spec (Z.of_nat (length (skipn n c))) 0) as [Z0|Z0]; cbn [bind].
    + assert (S0 : skipn n c = []) by (destruct (skipn n c); [reflexivity|cbn in Z0; lia]). rewrite S0. cbn [app]. do 4 eexists. split; [reflexivity|].
      rewrite S0 in FS. split; [exact FS|]. split; [now apply l_done|]. split; [repeat split|]. split; [rewrite firstn_length; lia|].
      split; [rewrite app_length; lia|]. split; [cbn; lia|]. discriminate.
    + do 4 eexists. split; [reflexivity|]. split; [exact FS|]. split; [apply l_size; auto; fields; lia|]. split; [repeat split|]. split; [rewrite firstn_length; lia|].
      split; [|split; [fields; lia|]].
      * rewrite FS at 2. rewrite !app_length. assert (0 < length (firstn n c))%nat; [|lia]. rewrite firstn_length. lia.
      * fields. intros _ _. right. destruct W as (_ & W). destruct (W E C) as [K|(K & _)]; [contradiction|]. split; [exact K|lia].
  - unfold nextChunk. rewrite C, P. cbn [andb Z.eqb]. inversion CH as [h s1 rest1 O SL TR|h m d t s1 c1 rest1 O SL M L T CH1]; subst.
    + rewrite (proj2 (readLine_spec max (h ++ 10 :: s1) h s1)) by auto. cbn [bind]. rewrite (proj2 (chunkSize_spec h 0) SL). cbn [bind]. rewrite Z.eqb_refl.
      rewrite (trailers_complete _ _ _ TR) by lia. cbn [bind]. unfold readData. fields. cbn [Z.ltb Z.compare bind]. unfold afterData. fields. rewrite C. cbn [Z.eqb andb negb bind].
      do 4 eexists. split; [reflexivity|]. split; [reflexivity|]. split; [now apply l_done|]. split; [repeat split|]. split; [cbn; lia|].
      split; [|split; [fields; lia|discriminate]]. apply trailers_complete with (fuel := S (length s1)) in TR; [|lia]. apply trailers_sound in TR. rewrite app_length. cbn [length]. lia.
    + rewrite (proj2 (readLine_spec max (h ++ 10 :: d ++ t ++ 10 :: s1) h (d ++ t ++ 10 :: s1))) by auto. cbn [bind]. rewrite (proj2 (chunkSize_spec h _) SL). cbn [bind].
      destruct (Z.eqb_spec (Z.of_nat (length d)) 0); [lia|]. destruct (data_chunk max (setRemaining r (Z.of_nat (length d))) d t s1 c1 rest n) as (d1 & r1 & s2 & c2 & HS & A & B & (M1 & M2 & M3) & D1 & D2 & D3); auto.
      exists d1, r1, s2, c2. split; [exact HS|]. split; [exact A|]. split; [exact B|]. split; [repeat split; assumption|]. split; [exact D1|].
      split; [rewrite app_length; cbn [length]; lia|]. split; [exact D3|]. intros _ K. rewrite M1 in K. cbn in K. congruence.
  - unfold nextChunk. rewrite C. destruct (Z.eqb_spec (rRemaining r) 0); [lia|]. cbn [andb bind].
    destruct (data_chunk max r d t s0 c0 rest n) as (d1 & r1 & s2 & c2 & HS & A & B & (M1 & M2 & M3) & D1 & D2 & D3); auto.
    exists d1, r1, s2, c2. split; [exact HS|]. split; [exact A|]. split; [exact B|]. split; [repeat split; assumption|]. split; [exact D1|].
    split; [exact D2|]. split; [exact D3|]. intros _ K. congruence.
Qed.
(** Soundness: data of a chunk. *)
Ltac noEnd := try (match goal with H : toEnd _ |- _ => destruct H as (_ & H & _); cbn in H; congruence end).
Lemma data_sound max r s n d1 r1 s1 c1 rest : rEof r = false -> rChunked r = true -> 0 < rRemaining r -> (0 < n)%nat ->
  (let* p := readData r s n in let '(d, r, s) := p in let* p := afterData max r s in let (r, s) := p : resp * str in Ok (d, r, s)) = Ok (d1, r1, s1) ->
  (left max r1 s1 c1 rest -> left max r s (d1 ++ c1) rest) /\ sameMode r r1 /\ rEof r1 = false /\ 0 <= rRemaining r1 /\ (length d1 <= n)%nat /\ (length s1 < length s)%nat.
Proof.
  intros E C P N. destruct (readData r s n) as [[[d r2] s2]| |] eqn:RD; [|discriminate..]. cbn [bind]. apply readData_inv in RD; [|exact P]. destruct RD as (-> & -> & L & LN & NE).
  specialize (NE N). assert (0 < length d)%nat by (destruct d; [contradiction|cbn; lia]).
  unfold afterData. fields. rewrite C, E. cbn [andb negb]. destruct (Z.eqb_spec (rRemaining r - Z.of_nat (length d)) 0) as [Z0|Z0].
  - destruct (readLine max s2) as [[t s3]| |] eqn:RL; [|discriminate..]. cbn [bind snd]. intros [= <- <- <-]. pose proof (readLine_len _ _ _ _ RL). apply readLine_spec in RL. destruct RL as (-> & T).
    repeat split; auto; [|fields; lia|rewrite app_length; lia]. intros H1. inversion H1 as [| |c0 rest0 E0 T0 C0|s0 c0 rest0 E0 C0 P0 CH|d0 t0 s0 c0 rest0 E0 C0 P0]; subst; cbn in *; try congruence; noEnd; [|lia].
    apply l_chunk; auto. lia.
  - cbn [bind]. intros [= <- <- <-]. repeat split; auto; [|fields; lia|rewrite app_length; lia]. intros H1.
    inversion H1 as [| |c0 rest0 E0 T0 C0|s0 c0 rest0 E0 C0 P0 CH|d0 t0 s0 c0 rest0 E0 C0 P0 L0]; subst; cbn in *; try congruence; noEnd.
    rewrite !app_assoc, <- (app_assoc (d ++ d0)). apply l_chunk; auto. rewrite app_length. lia.
Qed.
Lemma step_sound max r s n d r1 s1 c1 rest : (0 < n)%nat -> wfResp r -> rEof r = false -> ~ toEnd r -> step max r s n = Ok (d, r1, s1) ->
  (left max r1 s1 c1 rest -> left max r s (d ++ c1) rest) /\ sameMode r r1 /\ wfResp r1 /\ (length d <= n)%nat /\ (length s1 < length s)%nat.
Proof.
  intros N W E TE. unfold step, nextChunk. destruct (rChunked r) eqn:C; cbn [andb].
  - destruct (Z.eqb_spec (rRemaining r) 0) as [P|P].
    + destruct (readLine max s) as [[h s2]| |] eqn:RL; [|discriminate..]. cbn [bind]. apply readLine_spec in RL. destruct RL as (-> & O).
      destruct (chunkSize h) as [m| |] eqn:CS; [|discriminate..]. cbn [bind]. apply chunkSize_spec in CS. destruct (Z.eqb_spec m 0) as [->|M].
      * destruct (trailers max (S (length s2)) s2) as [s3| |] eqn:TR; [|discriminate..]. cbn [bind]. apply trailers_sound in TR. destruct TR as (TR & TL).
        unfold readData. fields. cbn [Z.ltb Z.compare bind]. unfold afterData. fields. rewrite C. cbn [Z.eqb andb negb bind]. intros [= <- <- <-].
        repeat split; auto; [|fields; lia|discriminate|cbn; lia|rewrite app_length; cbn [length]; lia]. intros H1. inversion H1; subst; cbn in *; try congruence; noEnd.
        apply l_chunks; auto. now constructor.
      * intros HS. assert (MP : 0 < m) by (destruct CS as (? & _); lia). destruct (data_sound max (setRemaining r m) s2 n d r1 s1 c1 rest) as (A & (M1 & M2 & M3) & E1 & P1 & L1 & L2); auto.
        repeat split; auto; [|intros _ K; rewrite M1 in K; cbn in K; congruence|rewrite app_length; cbn [length]; lia]. intros H1. apply A in H1.
        inversion H1 as [| |c0 rest0 E0 T0 C0|s0 c0 rest0 E0 C0 P0 CH|d0 t0 s0 c0 rest0 E0 C0 P0 L0 T0 CH0]; subst; cbn in *; try congruence; noEnd.
        apply l_chunks; auto. econstructor; eauto.
    + cbn [bind]. intros HS. assert (MP : 0 < rRemaining r) by (destruct W; lia). destruct (data_sound max r s n d r1 s1 c1 rest) as (A & M & E1 & P1 & L1 & L2); auto.
      repeat split; auto; try apply M. intros _ K. destruct M as (M & _). congruence.
  - cbn [bind]. destruct W as (W0 & W). destruct (W E C) as [K|(K & P)]; [contradiction|]. destruct (readData r s n) as [[[d0 r2] s2]| |] eqn:RD; [|discriminate..]. cbn [bind].
    apply readData_inv in RD; [|exact P]. destruct RD as (-> & -> & L & LN & NE). specialize (NE N). assert (0 < length d0)%nat by (destruct d0; [contradiction|cbn; lia]).
    unfold afterData. fields. rewrite C. cbn [andb]. destruct (Z.eqb_spec (rRemaining r - Z.of_nat (length d0)) 0) as [Z0|Z0]; cbn [bind]; intros [= <- <- <-].
    + repeat split; auto; [|fields; lia|discriminate|rewrite app_length; lia]. intros H1. inversion H1; subst; cbn in *; try congruence; noEnd. rewrite app_nil_r. apply l_size; auto. lia.
    + repeat split; auto; [|fields; lia|fields; intros _ _; right; split; [exact K|lia]|rewrite app_length; lia]. intros H1.
      inversion H1 as [| |c0 rest0 E0 T0 C0 P0 L0|s0 c0 rest0 E0 C0|]; subst; cbn in *; try congruence; noEnd; [exfalso; apply TE; assumption|].
      rewrite app_assoc. apply l_size; auto. rewrite app_length. lia.
Qed.
