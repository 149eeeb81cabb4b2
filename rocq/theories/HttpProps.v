(** C76, C77: responses of an HTTP server. *)
From Verif Require Import Base Str ConvertModel NumModel NumSpec NumProof SpoolModel SpoolSpec RegNameModel HttpModel HttpSpec HttpProof HttpProof2 HttpProof3 HttpProof4 HttpProof5.
From Coq Require Import String List.
Open Scope Z_scope. Open Scope list_scope.

(** Whatever the buffers, reading gives the bytes of the content in order and nothing else, the end is seen once more is asked for than there is, and
    then the next byte of the connection is the first after the response. *)
Theorem C76_content max r s c rest ns : wfResp r -> left max r s c rest -> Forall (fun n => 0 < n)%nat ns ->
  exists r1 s1, reads max r s ns = Ok (firstn (total ns) c, r1, s1) /\ left max r1 s1 (skipn (total ns) c) rest /\
    ((length c < total ns)%nat -> rEof r1 = true /\ s1 = rest).
Proof.
  intros W H F. destruct (reads_complete max ns r s c rest F W H) as (r1 & s1 & A & B & C). exists r1, s1. split; [exact A|]. split; [exact B|]. intros K. assert (E : rEof r1 = true) by auto.
  split; [exact E|]. apply left_eof in B; [|exact E]. symmetry. apply B.
Qed.
Print Assumptions C76_content.
(** If reading reached the end without an error then what was read is the content, all of it. *)
Theorem C76_sound max r s ns d r1 rest : wfResp r -> Forall (fun n => 0 < n)%nat ns -> reads max r s ns = Ok (d, r1, rest) -> rEof r1 = true -> left max r s d rest.
Proof. intros W F H E. rewrite <- (app_nil_r d). eapply reads_sound; eauto. now apply l_done. Qed.
Print Assumptions C76_sound.
Theorem C76_exact max r s c rest : wfResp r ->
  left max r s c rest <-> exists ns r1, Forall (fun n => 0 < n)%nat ns /\ reads max r s ns = Ok (c, r1, rest) /\ rEof r1 = true.
Proof.
  intros W. split.
  - intros H. destruct (C76_content max r s c rest [S (length c)] W H) as (r1 & s1 & A & _ & C); [solve [repeat (apply Forall_cons || apply Forall_nil || lia)]|]. cbn [total] in *. rewrite Nat.add_0_r in *.
    destruct C as (E & ->); [lia|]. exists [S (length c)], r1. split; [solve [repeat (apply Forall_cons || apply Forall_nil || lia)]|]. split; [|exact E]. rewrite A. now rewrite firstn_all2 by lia.
  - intros (ns & r1 & F & H & E). eapply C76_sound; eauto.
Qed.
Print Assumptions C76_exact.
(** There is one content, and one end of it. *)
Theorem C76_unique max r s c1 rest1 c2 rest2 : wfResp r -> left max r s c1 rest1 -> left max r s c2 rest2 -> c1 = c2 /\ rest1 = rest2.
Proof.
  intros W A B. set (n := S (length c1 + length c2)). destruct (C76_content max r s c1 rest1 [n] W A) as (r1 & s1 & A1 & _ & A3); [solve [repeat (apply Forall_cons || apply Forall_nil || lia)]|].
  destruct (C76_content max r s c2 rest2 [n] W B) as (r2 & s2 & B1 & _ & B3); [solve [repeat (apply Forall_cons || apply Forall_nil || lia)]|]. cbn [total] in *. rewrite Nat.add_0_r in *.
  destruct A3 as (_ & <-); [lia|]. destruct B3 as (_ & <-); [lia|]. rewrite !firstn_all2 in * by lia. rewrite A1 in B1. injection B1 as -> _ ->. auto.
Qed.
Print Assumptions C76_unique.
(** A response cut before its end is never taken for a whole one: the end is not reached without an error, and what is read until then is of the content. *)
Theorem C76_cut max r p q c rest ns d r1 s1 : wfResp r -> ~ toEnd r -> left max r (p ++ q) c rest -> (length rest < length q)%nat -> Forall (fun n => 0 < n)%nat ns ->
  reads max r p ns = Ok (d, r1, s1) -> rEof r1 = false /\ d = firstn (total ns) c.
Proof.
  intros W T H L F R. pose proof (reads_app max ns r p q d r1 s1 F W T R) as R2. destruct (reads_complete max ns r (p ++ q) c rest F W H) as (r2 & s2 & A & B & _).
  rewrite R2 in A. injection A as -> <- <-. split; [|reflexivity]. destruct (rEof r1) eqn:E; [|reflexivity]. apply left_eof in B; [|exact E]. destruct B as (_ & ->). rewrite app_length in L. lia.
Qed.
Print Assumptions C76_cut.
(** What comes later on the connection makes no difference. *)
Theorem C76_later max r s q ns d r1 s1 : wfResp r -> ~ toEnd r -> Forall (fun n => 0 < n)%nat ns -> reads max r s ns = Ok (d, r1, s1) ->
  reads max r (s ++ q) ns = Ok (d, r1, s1 ++ q).
Proof. intros W T F H. now apply reads_app. Qed.
Print Assumptions C76_later.
Theorem C76_errors max r s ns : wfResp r -> Forall (fun n => 0 < n)%nat ns ->
  (exists d r1 s1, reads max r s ns = Ok (d, r1, s1)) \/ reads max r s ns = Err EFileRead \/ reads max r s ns = Err EFormat.
Proof.
  intros W F. destruct (reads_okOr max ns r s F W) as [([[d r1] s1] & H)|(k & [<-|[<-|[]]] & H)]; eauto 6.
Qed.
Print Assumptions C76_errors.
(** The line after a chunk is dropped whatever is in it: a chunk longer than its header says loses bytes, without an error. *)
Theorem C76_dropped_refuted : exists s d r1,
  s = txt "3" ++ [13;10] ++ txt "abcde" ++ [13;10] ++ txt "0" ++ [13;10;13;10] /\
  reads 100 (mkResp true false 0 0 false false) s [50%nat] = Ok (d, r1, []) /\ rEof r1 = true /\ d = txt "abc".
Proof. do 3 eexists. split; [reflexivity|]. split; [vm_compute; reflexivity|]. split; reflexivity. Qed.
Print Assumptions C76_dropped_refuted.
(** Without a size or chunks the end of the connection is the end of the content: a cut is not seen. *)
Theorem C76_cut_refuted : exists r p q d r1, toEnd r /\ wfResp r /\ left 100 r (p ++ q) (p ++ q) [] /\ q <> [] /\ reads 100 r p [50%nat] = Ok (d, r1, []) /\ rEof r1 = true.
Proof.
  exists (mkResp false false 0 0 true false), (txt "abc"), (txt "def"), (txt "abc"). eexists. split; [repeat split|]. split; [split; [cbn; lia|intros; left; repeat split]|].
  split; [apply l_end; repeat split|]. split; [discriminate|]. split; [vm_compute; reflexivity|reflexivity].
Qed.
Print Assumptions C76_cut_refuted.
Example C76_nontrivial :
  let s := txt "3;x=1" ++ [13;10] ++ txt "abc" ++ [13;10] ++ txt "2 " ++ [13;10] ++ txt "de" ++ [13;10] ++ txt "0" ++ [13;10] ++ txt "t: v" ++ [13;10;13;10] ++ txt "next" in
  let r := mkResp true false 0 0 false false in
  left 100 r s (txt "abcde") (txt "next") /\
  (exists r1 s1, reads 100 r s [2;2]%nat = Ok (txt "abcd", r1, s1) /\ rEof r1 = false) /\
  (exists r1, reads 100 r s [2;2;2]%nat = Ok (txt "abcde", r1, txt "next") /\ rEof r1 = true) /\
  reads 100 r (firstn 20 s) [2;2;2]%nat = Err EFileRead.
Proof.
  cbv zeta. split.
  - apply (C76_sound 100 _ _ [10%nat] _ (mkResp true false 0 0 false true)); [split; [cbn; lia|discriminate]|solve [repeat (apply Forall_cons || apply Forall_nil || lia)]|vm_compute; reflexivity|reflexivity].
  - split; [do 2 eexists; split; [vm_compute; reflexivity|reflexivity]|]. split; [eexists; split; [vm_compute; reflexivity|reflexivity]|vm_compute; reflexivity].
Qed.

(** The status line, exactly. *)
Theorem C77_status max s code reason v10 rest : statusRead max s = Ok (code, reason, v10, rest) <-> statusLine max s code reason v10 rest.
Proof. apply status_spec. Qed.
Print Assumptions C77_status.
(** The response as a whole: which texts are accepted, and what they say of the content. *)
Theorem C77_new max head s code reason r rest : httpResponseNew max head s = Ok (code, reason, r, rest) <->
  exists v10 s1 hs, statusLine max s code reason v10 s1 /\ headerText max s1 hs rest /\ framing hs v10 r /\ ~ (rChunked r = true /\ rSizeSet r = true) /\
    (rEof r = true <-> head = true \/ (rChunked r = false /\ rSize r = 0 /\ rClose r = false)).
Proof.
  unfold httpResponseNew. split.
  - destruct (statusRead max s) as [[[[code0 reason0] v10] s1]| |] eqn:ST; [|discriminate..]. cbn [bind]. apply status_spec in ST.
    destruct (headerRead max _ s1) as [[r0 s2]| |] eqn:HD; [|discriminate..]. cbn [bind]. apply headers_spec in HD. destruct HD as (hs & HT & HF & E & N). intros [= <- <- <- <-].
    exists v10, s1, hs. split; [exact ST|]. split; [exact HT|]. split; [exact HF|]. split; [exact N|]. cbn. pose proof (size_nonneg _ _ _ HF) as (P & _).
    destruct head, (rChunked r0), (rClose r0), (Z.ltb_spec 0 (rSize r0)); cbn; intuition (lia || congruence).
  - intros (v10 & s1 & hs & ST & HT & HF & N & E). apply status_spec in ST. rewrite ST. cbn [bind].
    rewrite (proj2 (headers_spec max v10 s1 (setEof r false) rest)); [|exists hs; repeat split; try apply HF; assumption]. cbn [bind]. do 2 f_equal. f_equal.
    pose proof (size_nonneg _ _ _ HF) as (P & _). destruct r as [rc rs rz rm rcl re]. unfold setEof. cbn in *. f_equal.
    destruct head, rc, rcl, (Z.ltb_spec 0 rz), re; cbn; try reflexivity; exfalso; try (assert (rz = 0) by lia; subst rz); intuition (lia || congruence).
Qed.
Print Assumptions C77_new.
(** A new response is ready to be read, and has read nothing of its content. *)
Theorem C77_ready max head s code reason r rest : httpResponseNew max head s = Ok (code, reason, r, rest) ->
  wfResp r /\ rRemaining r = rSize r /\ 0 <= rSize r < 2 ^ 64 /\ 0 <= code < 1000 /\ (head = true -> rEof r = true).
Proof.
  intros H. apply C77_new in H. destruct H as (v10 & s1 & hs & ST & _ & HF & N & E). pose proof (size_nonneg _ _ _ HF) as (P & R). split; [|split; [exact R|]].
  - split; [lia|]. intros E0 C. unfold toEnd. destruct (Z.eq_dec (rSize r) 0) as [S0|S0].
    + left. repeat split; auto. destruct (rClose r) eqn:CL; [reflexivity|]. assert (rEof r = true) by (apply E; right; auto). congruence.
    + right. split; [exact S0|lia].
  - split.
    + split; [exact P|]. destruct HF as (_ & _ & _ & _ & S & _). destruct S as [(S & _)|(x & v & y & _ & _ & t & _ & _ & S)]; [rewrite S; reflexivity|apply S].
    + split; [|intros HH; apply E; auto]. destruct ST as (c & num & _ & _ & _ & _ & L & U). eapply code_bound; eauto.
Qed.
Print Assumptions C77_ready.
(** With a size and no chunks the content is that many bytes; with chunks it is the chunks; HEAD has none. *)
Theorem C77_framed max head s code reason r s1 c rest : httpResponseNew max head s = Ok (code, reason, r, s1) -> left max r s1 c rest ->
  (head = true -> c = [] /\ rest = s1) /\
  (head = false -> rChunked r = true -> chunks max s1 c rest) /\
  (head = false -> rChunked r = false -> 0 < rSize r -> s1 = c ++ rest /\ Z.of_nat (length c) = rSize r) /\
  (rChunked r = false -> rSize r = 0 -> rClose r = false -> c = [] /\ rest = s1).
Proof.
  intros H L. destruct (C77_ready _ _ _ _ _ _ _ H) as (W & R & P & _ & HH). apply C77_new in H. destruct H as (v10 & s2 & hs & _ & _ & HF & N & E). split; [|split; [|split]].
  - intros K. eapply left_eof; eauto.
  - intros K C. assert (E0 : rEof r = false) by (destruct (rEof r) eqn:X; [|reflexivity]; exfalso; destruct (proj1 E eq_refl) as [Y|(Y & _)]; congruence).
    assert (Z0 : rRemaining r = 0).
    { rewrite R. destruct HF as (_ & _ & F3 & _ & F5 & _). destruct F5 as [(S & _)|(x & v & y & Ex & _)]; [exact S|]. exfalso. apply N. split; [exact C|]. apply F3. exists v. rewrite Ex. apply in_app_iff. right. now left. }
    inversion L; subst; try congruence; try lia. destruct H0 as (_ & K2 & _). congruence.
  - intros K C S. assert (E0 : rEof r = false) by (destruct (rEof r) eqn:X; [|reflexivity]; exfalso; destruct (proj1 E eq_refl) as [Y|(_ & Y & _)]; [congruence|lia]).
    inversion L; subst; try congruence; [destruct H0 as (_ & _ & K2); lia|]. split; [reflexivity|lia].
  - intros C S CL. eapply left_eof; [|exact L]. apply E. auto.
Qed.
Print Assumptions C77_framed.
Theorem C77_errors max head s : (exists v, httpResponseNew max head s = Ok v) \/ httpResponseNew max head s = Err EFileRead \/ httpResponseNew max head s = Err EFormat.
Proof.
  assert (G : okOr (httpResponseNew max head s) readErrs); [|destruct G as [H|(k & [<-|[<-|[]]] & H)]; auto]. unfold httpResponseNew. apply okOr_bind.
  - unfold statusRead. apply okOr_bind; [apply readLine_okOr|]. intros [l s1] _. destruct (negb _); [apply okOr_err; cbn; auto|]. cbv zeta. destruct (_ <? _)%nat; [apply okOr_err; cbn; auto|].
    destruct (_ && _)%bool; [apply okOr_err; cbn; auto|]. destruct (strChrZ _ _) as [[|[|[|[|i]]]]|]; try (apply okOr_err; cbn; now auto). apply okOr_bind; [|intros; apply okOr_ok].
    unfold cvtZToUInt, zToUInt64Internal. destruct (strtoull _ _) as [[v e] t]. destruct (zValid e _ t); cbn [bind]; [|apply okOr_err; cbn; auto]. destruct (_ || _)%bool; [apply okOr_err; cbn; auto|apply okOr_ok].
  - intros [[[code reason] v10] s1] _. apply okOr_bind; [|intros [r s2] _; apply okOr_ok]. unfold headerRead. apply okOr_bind; [|intros [r s2] _; cbn [fst]; destruct (_ && _)%bool; [apply okOr_err; cbn; auto|apply okOr_ok]].
    generalize (mkResp false false 0 0 v10 false). assert (F : (length s1 < S (length s1))%nat) by lia. revert F. generalize (S (length s1)). intros fuel. revert s1.
    induction fuel as [|fuel IH]; intros s1 F r; [lia|]. cbn [headerLoop]. apply okOr_bind; [apply readLine_okOr|]. intros [l s2] RL. apply readLine_len in RL. destruct (strTrim l) as [|x t]; [apply okOr_ok|].
    apply okOr_bind; [|intros r2 _; apply IH; lia]. rewrite header1_split. destruct (split1 _) as [[k v]|]; [|apply okOr_err; cbn; auto]. unfold upd. apply okOr_bind.
    + destruct (strEqb k _); [|apply okOr_ok]. destruct (strEqb _ _); [apply okOr_ok|apply okOr_err; cbn; auto].
    + intros r3 _. apply okOr_bind; [|intros; apply okOr_ok]. destruct (strEqb k _); [|apply okOr_ok]. apply okOr_bind; [|intros; apply okOr_ok].
      destruct (cvt64_err 10 (cz v)) as [Hc|Hc]; [now left|]. rewrite Hc. apply okOr_err. cbn. auto.
Qed.
Print Assumptions C77_errors.
(** Two different sizes are accepted: the last one counts. *)
Theorem C77_sizes_refuted : exists s r rest, httpResponseNew 100 false s = Ok (200, txt "OK", r, rest) /\ rSize r = 3 /\
  s = txt "HTTP/1.1 200 OK" ++ [13;10] ++ txt "content-length:5" ++ [13;10] ++ txt "content-length:3" ++ [13;10;13;10] ++ rest /\ rest = txt "abcde".
Proof. do 3 eexists. split; [|split; [|split; [reflexivity|reflexivity]]]; vm_compute; reflexivity. Qed.
Print Assumptions C77_sizes_refuted.
(** A size of zero is not kept if the connection will be closed: anything up to its end is the content. *)
Theorem C77_zero_refuted : exists s r rest, httpResponseNew 100 false s = Ok (200, txt "OK", r, rest) /\ rSizeSet r = true /\ rSize r = 0 /\ left 100 r rest (txt "abc") [] /\
  s = txt "HTTP/1.1 200 OK" ++ [13;10] ++ txt "content-length:0" ++ [13;10] ++ txt "Connection: Close" ++ [13;10;13;10] ++ txt "abc".
Proof.
  do 3 eexists. split; [|split; [|split; [|split; [|reflexivity]]]]; cycle 3.
  - apply (l_end 100 (mkResp false true 0 0 true false)); [reflexivity|repeat split].
  - vm_compute. reflexivity.
  - reflexivity.
  - reflexivity.
Qed.
Print Assumptions C77_zero_refuted.
Example C77_nontrivial :
  let s := txt "HTTP/1.1 404 Not Found" ++ [13;10] ++ txt "Transfer-Encoding : Chunked" ++ [13;10] ++ txt "x:" ++ [13;10;13;10] ++ txt "0" in
  httpResponseNew 100 false s = Ok (404, txt "Not Found", mkResp true false 0 0 false false, txt "0") /\
  httpResponseNew 100 true s = Ok (404, txt "Not Found", mkResp true false 0 0 false true, txt "0") /\
  httpResponseNew 100 false (txt "HTTP/1.1 200 " ++ [13;10] ++ txt "content-length:7" ++ [10;10]) = Ok (200, [], mkResp false true 7 7 false false, []) /\
  httpResponseNew 100 false (txt "HTTP/2.0 200 OK" ++ [13;10;13;10]) = Err EFormat /\
  httpResponseNew 100 false (txt "HTTP/1.1 200 OK" ++ [13;10] ++ txt "transfer-encoding:gzip" ++ [10;10]) = Err EFormat /\
  httpResponseNew 100 false (txt "HTTP/1.1 200 OK" ++ [13;10] ++ txt "a:b" ++ [10]) = Err EFileRead.
Proof. vm_compute. repeat split. Qed.
