(** Proofs for HTTP responses: reading all of the content, status and headers. *)
From Verif Require Import Base Str ConvertModel NumModel NumSpec NumProof SpoolModel SpoolSpec SpoolProof TimelineProof RegNameModel OptSizeModel HttpModel HttpSpec HttpProof HttpProof2.
From Coq Require Import String List.
Open Scope Z_scope. Open Scope list_scope.

Fixpoint total (ns : list nat) : nat := match ns with [] => 0%nat | n :: r => (n + total r)%nat end.

Lemma sameMode_trans a b c : sameMode a b -> sameMode b c -> sameMode a c.
Proof. unfold sameMode. intros (? & ? & ?) (? & ? & ?). repeat split; congruence. Qed.
Lemma left_eof max r s c rest : rEof r = true -> left max r s c rest -> c = [] /\ rest = s.
Proof. intros E H. inversion H; subst; try congruence. auto. Qed.

Lemma loop_complete max fuel : forall r s n c rest, (length s < fuel)%nat -> (0 < n)%nat -> wfResp r -> rEof r = false -> ~ toEnd r -> left max r s c rest ->
  exists r1 s1, readLoop max fuel r s n = Ok (firstn n c, r1, s1) /\ left max r1 s1 (skipn n c) rest /\ sameMode r r1 /\ wfResp r1 /\ ((length c < n)%nat -> rEof r1 = true).
Proof.
  induction fuel as [|fuel IH]; intros r s n c rest F N W E T H; [lia|]. rewrite readLoop_step.
  destruct (step_complete max r s n c rest N W E T H) as (d & r1 & s1 & c1 & HS & -> & L & M & LD & LS & W1). rewrite HS. cbn [bind].
  destruct (Nat.eqb_spec (n - length d) 0) as [D|D]; cbn [orb].
  - assert (ED : n = length d) by lia. subst n. exists r1, s1. rewrite first_mid, skip_len. split; [reflexivity|]. split; [exact L|]. split; [exact M|]. split; [exact W1|]. rewrite app_length. lia.
  - destruct (rEof r1) eqn:E1.
    + destruct (left_eof _ _ _ _ _ E1 L) as (-> & ->). rewrite app_nil_r, firstn_all2, skipn_all2 by lia. exists r1, s1. auto.
    + assert (T1 : ~ toEnd r1) by (now rewrite (sameMode_toEnd _ _ M)). destruct (IH r1 s1 (n - length d)%nat c1 rest) as (r2 & s2 & HR & L2 & M2 & W2 & E2); auto; [lia..|].
      rewrite HR. cbn [bind]. exists r2, s2. rewrite firstn_app, (firstn_all2 (n := n) d) by lia. split; [reflexivity|].
      rewrite skipn_app, (skipn_all2 (n := n) d) by lia. split; [exact L2|]. split; [eapply sameMode_trans; eauto|]. split; [exact W2|]. rewrite app_length. intros K. apply E2. lia.
Qed.
Lemma loop_sound max fuel : forall r s n d r1 s1 c1 rest, (0 < n)%nat -> wfResp r -> rEof r = false -> ~ toEnd r -> readLoop max fuel r s n = Ok (d, r1, s1) ->
  (left max r1 s1 c1 rest -> left max r s (d ++ c1) rest) /\ sameMode r r1 /\ wfResp r1.
Proof.
  induction fuel as [|fuel IH]; intros r s n d r1 s1 c1 rest N W E T; [discriminate|]. rewrite readLoop_step.
  destruct (step max r s n) as [[[d0 r2] s2]| |] eqn:HS; [|discriminate..]. cbn [bind].
  destruct (_ || _)%bool eqn:B.
  - intros [= <- <- <-]. destruct (step_sound max r s n d0 r2 s2 c1 rest N W E T HS) as (A & M & W1 & _). auto.
  - apply orb_false_iff in B. destruct B as (B & E2). apply Nat.eqb_neq in B. destruct (readLoop max fuel r2 s2 _) as [[[d2 r3] s3]| |] eqn:HR; [|discriminate..]. cbn [bind].
    intros [= <- <- <-]. destruct (step_sound max r s n d0 r2 s2 (d2 ++ c1) rest N W E T HS) as (A & M & W1 & _).
    assert (T2 : ~ toEnd r2) by (now rewrite (sameMode_toEnd _ _ M)). destruct (IH r2 s2 (n - length d0)%nat d2 r3 s3 c1 rest) as (A2 & M2 & W2); auto; [lia|].
    rewrite <- app_assoc. split; [auto|]. split; [eapply sameMode_trans; eauto|exact W2].
Qed.

Lemma read_complete max r s n c rest : (0 < n)%nat -> wfResp r -> left max r s c rest ->
  exists r1 s1, httpResponseRead max r s n = Ok (firstn n c, r1, s1) /\ left max r1 s1 (skipn n c) rest /\ sameMode r r1 /\ wfResp r1 /\ ((length c < n)%nat -> rEof r1 = true).
Proof.
  intros N W H. unfold httpResponseRead. destruct (rEof r) eqn:E.
  - destruct (left_eof _ _ _ _ _ E H) as (-> & ->). exists r, s. rewrite firstn_nil, skipn_nil. split; [reflexivity|]. split; [now apply l_done|]. split; [apply sameMode_refl|]. auto.
  - destruct (rClose r && negb (rChunked r) && (rSize r =? 0))%bool eqn:B.
    + assert (T : toEnd r) by (rewrite !andb_true_iff, negb_true_iff, Z.eqb_eq in B; unfold toEnd; tauto).
      assert (A : c = s /\ rest = []) by (inversion H; subst; auto; try congruence; try contradiction; destruct T as (_ & T & _); congruence). destruct A as (-> & ->).
      exists (setEof r (length s <? n)%nat), (skipn n s). split; [reflexivity|]. split; [|split; [repeat split|split; [split; [apply W|]|]]].
      * destruct (Nat.ltb_spec (length s) n) as [L|L]; [rewrite skipn_all2 by lia; now apply l_done|]. now apply l_end.
      * intros _ _. left. exact T.
      * intros L. cbn. now apply Nat.ltb_lt.
    + assert (T : ~ toEnd r) by (intros (T1 & T2 & T3); rewrite T1, T2, T3 in B; discriminate). apply loop_complete; auto.
Qed.
Lemma read_sound max r s n d r1 s1 c1 rest : (0 < n)%nat -> wfResp r -> httpResponseRead max r s n = Ok (d, r1, s1) ->
  (left max r1 s1 c1 rest -> left max r s (d ++ c1) rest) /\ sameMode r r1 /\ wfResp r1.
Proof.
  intros N W. unfold httpResponseRead. destruct (rEof r) eqn:E.
  - intros [= <- <- <-]. split; [auto|]. split; [apply sameMode_refl|exact W].
  - destruct (rClose r && negb (rChunked r) && (rSize r =? 0))%bool eqn:B.
    + assert (T : toEnd r) by (rewrite !andb_true_iff, negb_true_iff, Z.eqb_eq in B; unfold toEnd; tauto). intros [= <- <- <-].
      split; [|split; [repeat split|split; [apply W|intros _ _; left; exact T]]]. intros H. destruct (Nat.ltb_spec (length s) n) as [L|L].
      * apply left_eof in H; [|reflexivity]. destruct H as (-> & ->). rewrite app_nil_r, firstn_all2, skipn_all2 by lia. now apply l_end.
      * assert (A : c1 = skipn n s /\ rest = []) by (inversion H; subst; auto; cbn in *; try congruence; try contradiction; destruct T as (_ & T & _); congruence).
        destruct A as (-> & ->). rewrite firstn_skipn. now apply l_end.
    + assert (T : ~ toEnd r) by (intros (T1 & T2 & T3); rewrite T1, T2, T3 in B; discriminate). now apply loop_sound.
Qed.
Lemma skip_add a b (c : str) : skipn (a + b) c = skipn b (skipn a c).
Proof. revert c. induction a as [|a IH]; intros c; [reflexivity|]. destruct c; cbn; [now rewrite skipn_nil|apply IH]. Qed.
Lemma first_add a b (c : str) : firstn (a + b) c = firstn a c ++ firstn b (skipn a c).
Proof. revert c. induction a as [|a IH]; intros c; [reflexivity|]. destruct c; cbn; [now rewrite firstn_nil|now rewrite IH]. Qed.
Lemma read_keeps max r s n : rEof r = true -> httpResponseRead max r s n = Ok ([], r, s).
Proof. intros E. unfold httpResponseRead. now rewrite E. Qed.
Lemma reads_complete max ns : forall r s c rest, Forall (fun n => 0 < n)%nat ns -> wfResp r -> left max r s c rest ->
  exists r1 s1, reads max r s ns = Ok (firstn (total ns) c, r1, s1) /\ left max r1 s1 (skipn (total ns) c) rest /\ ((length c < total ns)%nat \/ rEof r = true -> rEof r1 = true).
Proof.
  induction ns as [|n ns IH]; intros r s c rest F W H.
  - exists r, s. split; [reflexivity|]. split; [exact H|]. cbn. intros [K|K]; [lia|exact K].
  - inversion F; subst. destruct (read_complete max r s n c rest) as (r1 & s1 & HR & L & M & W1 & E1); auto. cbn [reads total].
    destruct (IH r1 s1 (skipn n c) rest) as (r2 & s2 & HR2 & L2 & E2); auto. exists r2, s2. split; [rewrite HR; cbn [bind]; rewrite HR2; cbn [bind]; now rewrite first_add|].
    split; [now rewrite skip_add|]. intros K. apply E2. destruct (Nat.lt_ge_cases (length c) n) as [Q|Q]; [right; auto|]. destruct K as [K|K].
    + left. rewrite skipn_length. lia.
    + right. rewrite read_keeps in HR by exact K. injection HR as _ <- _. exact K.
Qed.
Lemma reads_sound max ns : forall r s d r1 s1 c1 rest, Forall (fun n => 0 < n)%nat ns -> wfResp r -> reads max r s ns = Ok (d, r1, s1) ->
  left max r1 s1 c1 rest -> left max r s (d ++ c1) rest.
Proof.
  induction ns as [|n ns IH]; intros r s d r1 s1 c1 rest F W; cbn [reads].
  - intros [= <- <- <-]. auto.
  - inversion F; subst. destruct (httpResponseRead max r s n) as [[[d0 r2] s2]| |] eqn:HR; [|discriminate..]. cbn [bind].
    destruct (reads max r2 s2 ns) as [[[d2 r3] s3]| |] eqn:HR2; [|discriminate..]. cbn [bind]. intros [= <- <- <-] L. rewrite <- app_assoc.
    destruct (read_sound max r s n d0 r2 s2 (d2 ++ c1) rest) as (A & _ & W2); auto. apply A. eapply IH; eauto.
Qed.

(** * A server that sends no more: the part before is read as before *)
Lemma nextChunk_app max r p q r1 s1 : nextChunk max r p = Ok (r1, s1) -> nextChunk max r (p ++ q) = Ok (r1, s1 ++ q).
Proof.
  unfold nextChunk. destruct (_ && _)%bool; [|now intros [= <- <-]]. destruct (readLine max p) as [[h s2]| |] eqn:RL; [|discriminate..]. rewrite (readLine_app _ _ q _ _ RL). cbn [bind].
  destruct (chunkSize h) as [m| |]; [|discriminate..]. cbn [bind]. destruct (m =? 0); [|now intros [= <- <-]].
  destruct (trailers max (S (length s2)) s2) as [s3| |] eqn:TR; [|discriminate..]. cbn [bind]. intros [= <- <-].
  rewrite (trailers_app _ _ _ _ TR (S (length (s2 ++ q))) q); [reflexivity|]. rewrite app_length. lia.
Qed.
Lemma readData_app r p q n d r1 s1 : readData r p n = Ok (d, r1, s1) -> readData r (p ++ q) n = Ok (d, r1, s1 ++ q).
Proof.
  unfold readData. destruct (0 <? rRemaining r); [|now intros [= <- <- <-]]. set (k := Z.to_nat _). destruct (Nat.ltb_spec (length p) k) as [K|K]; [discriminate|].
  intros [= <- <- <-]. destruct (Nat.ltb_spec (length (p ++ q)) k) as [K2|K2]; [rewrite app_length in K2; lia|].
  rewrite firstn_app, skipn_app. replace (k - length p)%nat with 0%nat by lia. now rewrite firstn_O, app_nil_r.
Qed.
Lemma afterData_app max r p q r1 s1 : afterData max r p = Ok (r1, s1) -> afterData max r (p ++ q) = Ok (r1, s1 ++ q).
Proof.
  unfold afterData. destruct (_ =? 0); [|now intros [= <- <-]]. destruct (_ && _)%bool; [|now intros [= <- <-]].
  destruct (readLine max p) as [[h s2]| |] eqn:RL; [|discriminate..]. rewrite (readLine_app _ _ q _ _ RL). cbn [bind snd]. now intros [= <- <-].
Qed.
Lemma step_app max r p q n d r1 s1 : step max r p n = Ok (d, r1, s1) -> step max r (p ++ q) n = Ok (d, r1, s1 ++ q).
Proof.
  unfold step. destruct (nextChunk max r p) as [[r2 s2]| |] eqn:A; [|discriminate..]. rewrite (nextChunk_app _ _ _ q _ _ A). cbn [bind].
  destruct (readData r2 s2 n) as [[[d3 r3] s3]| |] eqn:B; [|discriminate..]. rewrite (readData_app _ _ q _ _ _ _ B). cbn [bind].
  destruct (afterData max r3 s3) as [[r4 s4]| |] eqn:C; [|discriminate..]. rewrite (afterData_app _ _ _ q _ _ C). cbn [bind]. now intros [= <- <- <-].
Qed.
Lemma loop_app max fuel : forall r p n d r1 s1, readLoop max fuel r p n = Ok (d, r1, s1) -> forall f2 q, (fuel <= f2)%nat -> readLoop max f2 r (p ++ q) n = Ok (d, r1, s1 ++ q).
Proof.
  induction fuel as [|fuel IH]; intros r p n d r1 s1; [discriminate|]. intros H f2 q F. destruct f2 as [|f2]; [lia|]. rewrite readLoop_step in *.
  destruct (step max r p n) as [[[d0 r2] s2]| |] eqn:HS; [|discriminate..]. rewrite (step_app _ _ _ q _ _ _ _ HS). cbn [bind] in *.
  destruct (_ || _)%bool; [now injection H as <- <- <-|]. destruct (readLoop max fuel r2 s2 _) as [[[d2 r3] s3]| |] eqn:HR; [|discriminate..]. cbn [bind] in H. injection H as <- <- <-.
  rewrite (IH _ _ _ _ _ _ HR f2 q) by lia. reflexivity.
Qed.
Lemma read_app max r p q n d r1 s1 : ~ toEnd r -> httpResponseRead max r p n = Ok (d, r1, s1) -> httpResponseRead max r (p ++ q) n = Ok (d, r1, s1 ++ q).
Proof.
  intros T. unfold httpResponseRead. destruct (rEof r); [now intros [= <- <- <-]|]. destruct (_ && _)%bool eqn:B.
  - exfalso. apply T. rewrite !andb_true_iff, negb_true_iff, Z.eqb_eq in B. unfold toEnd. tauto.
  - intros H. apply (loop_app _ _ _ _ _ _ _ _ H). rewrite app_length. lia.
Qed.
Lemma reads_app max ns : forall r p q d r1 s1, Forall (fun n => 0 < n)%nat ns -> wfResp r -> ~ toEnd r -> reads max r p ns = Ok (d, r1, s1) ->
  reads max r (p ++ q) ns = Ok (d, r1, s1 ++ q).
Proof.
  induction ns as [|n ns IH]; intros r p q d r1 s1 F W T; cbn [reads]; [now intros [= <- <- <-]|]. inversion F; subst.
  destruct (httpResponseRead max r p n) as [[[d0 r2] s2]| |] eqn:HR; [|discriminate..]. rewrite (read_app _ _ _ q _ _ _ _ T HR). cbn [bind].
  destruct (read_sound max r p n d0 r2 s2 [] []) as (_ & M & W2); auto.
  destruct (reads max r2 s2 ns) as [[[d2 r3] s3]| |] eqn:HR2; [|discriminate..]. cbn [bind]. intros [= <- <- <-].
  rewrite (IH _ _ q _ _ _ H2 W2) with (2 := HR2); [reflexivity|]. now rewrite (sameMode_toEnd _ _ M).
Qed.

(** * Errors *)
Definition okOr {A} (x : res A) (e : list errkind) : Prop := (exists v, x = Ok v) \/ exists k, In k e /\ x = Err k.
Lemma okOr_bind {A B} (x : res A) (f : A -> res B) e : okOr x e -> (forall v, x = Ok v -> okOr (f v) e) -> okOr (bind x f) e.
Proof. intros [(v & ->)|(k & I & ->)] H; cbn [bind]; [now apply H|]. right. eauto. Qed.
Lemma okOr_ok {A} (v : A) e : okOr (Ok v) e.
Proof. left. eauto. Qed.
Lemma okOr_err {A} k e : In k e -> okOr (Err k : res A) e.
Proof. intros H. right. eauto. Qed.
Definition readErrs : list errkind := [EFileRead; EFormat].
Lemma readLine_okOr max s : okOr (readLine max s) readErrs.
Proof. destruct (readLine_err max s) as [H|H]; [now left|]. rewrite H. apply okOr_err. now left. Qed.
Lemma step_okOr max r s n : okOr (step max r s n) readErrs.
Proof.
  unfold step. apply okOr_bind.
  - unfold nextChunk. destruct (_ && _)%bool; [|apply okOr_ok]. apply okOr_bind; [apply readLine_okOr|]. intros [h s2] _. apply okOr_bind.
    + destruct (chunkSize_err h) as [H|H]; [now left|]. rewrite H. apply okOr_err. right. now left.
    + intros m _. destruct (m =? 0); [|apply okOr_ok]. apply okOr_bind; [|intros; apply okOr_ok]. destruct (trailers_err max (S (length s2)) s2) as [H|H]; [lia|now left|]. rewrite H. apply okOr_err. now left.
  - intros [r1 s1] _. apply okOr_bind.
    + unfold readData. destruct (0 <? _); [|apply okOr_ok]. destruct (_ <? _)%nat; [apply okOr_err; now left|apply okOr_ok].
    + intros [[d r2] s2] _. apply okOr_bind; [|intros [r3 s3] _; apply okOr_ok]. unfold afterData. destruct (_ =? 0); [|apply okOr_ok].
      destruct (_ && _)%bool; [|apply okOr_ok]. apply okOr_bind; [apply readLine_okOr|]. intros; apply okOr_ok.
Qed.
Lemma loop_okOr max fuel : forall r s n, (0 < n)%nat -> wfResp r -> rEof r = false -> ~ toEnd r -> (length s < fuel)%nat -> okOr (readLoop max fuel r s n) readErrs.
Proof.
  induction fuel as [|fuel IH]; intros r s n N W E T F; [lia|]. rewrite readLoop_step. apply okOr_bind; [apply step_okOr|]. intros [[d r1] s1] HS.
  destruct (step_sound max r s n d r1 s1 [] [] N W E T HS) as (_ & M & W1 & LD & LS). cbv beta iota zeta. destruct (_ || _)%bool eqn:B; [apply okOr_ok|].
  apply orb_false_iff in B. destruct B as (B & E1). apply Nat.eqb_neq in B. apply okOr_bind; [|intros [[? ?] ?] _; apply okOr_ok]. apply IH; auto; [lia| |lia]. now rewrite (sameMode_toEnd _ _ M).
Qed.
Lemma reads_okOr max ns : forall r s, Forall (fun n => 0 < n)%nat ns -> wfResp r -> okOr (reads max r s ns) readErrs.
Proof.
  induction ns as [|n ns IH]; intros r s F W; cbn [reads]; [apply okOr_ok|]. inversion F; subst. apply okOr_bind.
  - unfold httpResponseRead. destruct (rEof r) eqn:E; [apply okOr_ok|]. destruct (_ && _)%bool eqn:B; [apply okOr_ok|]. apply loop_okOr; auto.
    intros (T1 & T2 & T3). rewrite T1, T2, T3 in B. discriminate.
  - intros [[d r1] s1] HR. destruct (read_sound max r s n d r1 s1 [] []) as (_ & _ & W1); auto. apply okOr_bind; [now apply IH|]. intros [[? ?] ?] _. apply okOr_ok.
Qed.
