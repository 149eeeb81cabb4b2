From Verif Require Import Base IoGroupModel IoGroupSpec IoGroupProof.
Open Scope Z_scope.

Section Write.
Variables (D : Type) (isOut : D -> bool) (inOut : D -> option (list Z) -> nat -> D * list Z) (procIn : D -> list Z -> D) (same : D -> bool)
  (done : D -> option bool) (bufferNew : D) (size : nat).
Hypothesis Hok : filterOk D isOut inOut procIn same done.
Local Notation ginv := (ginv D isOut inOut procIn same done).
Local Notation process := (ioFilterGroupProcess D isOut inOut procIn same done).
Local Notation ioWriteLoop := (ioWriteLoop D isOut inOut procIn same done size).
Local Notation ioWrite := (ioWrite D isOut inOut procIn same done size).
Local Notation ioWriteClose := (ioWriteClose D isOut inOut procIn same done size).
Local Notation gSame := (gSame D).
Local Notation gDone := (gDone D).
Local Notation flt := (flt D).
Local Notation fD := (fD D).
Local Notation fOut := (fOut D).
Local Notation fCap := (fCap D).
Local Notation fwd := (fwd D isOut inOut procIn same done).
Local Notation fwdFrom := (fwdFrom D isOut inOut procIn same done).

(** The output never gets longer than the buffer. *)
Fixpoint lastFits (cap : nat) (fs : list flt) : Prop :=
  match fs with
  | [] => True
  | [f] => fCap f = cap /\ match fOut f with Some o => (length o <= cap)%nat | None => True end
  | _ :: r => lastFits cap r
  end.
Lemma lastFits_cons cap f r : r <> [] -> lastFits cap (f :: r) = lastFits cap r. Proof. destruct r; [congruence|reflexivity]. Qed.
Lemma fwd_len : forall fs loc inp fs' inp' sm, fwd fs loc inp = Ok (fs', inp', sm) -> length fs' = length fs.
Proof.
  induction fs as [|f fs IH]; intros loc inp fs' inp' sm E; cbn [IoGroupModel.fwd] in E; [injection E as <- <- <-; reflexivity|].
  assert (N : forall (g : flt) i b, (let* (r', o, s') := fwd fs true (fOut g) in Ok (setOut D g o :: r', i, b || s')) = Ok (fs', inp', sm) -> length fs' = Datatypes.S (length fs)).
  { intros g i b Eg. destruct (fwd fs true (fOut g)) as [[[r' o] s']| |] eqn:Ef; cbn [bind] in Eg; try discriminate. injection Eg as <- <- <-. cbn. f_equal. eapply IH; exact Ef. }
  destruct (isOut (fD f)).
  - destruct (fDone D same done f); [eapply N; exact E|]. destruct (ioFilterProcessInOut D inOut same done f inp) as [g| |]; cbn [bind] in E; try discriminate.
    destruct (negb (outFull D g) && negb (fDone D same done g)); [injection E as <- <- <-; reflexivity|]. eapply N; exact E.
  - match type of E with bind ?e _ = _ => destruct e as [g| |]; cbn [bind] in E; try discriminate end.
    destruct (fwd fs loc inp) as [[[r' o] s']| |] eqn:Ef; cbn [bind] in E; try discriminate. injection E as <- <- <-. cbn. f_equal. eapply IH; exact Ef.
Qed.
Lemma ne_len {A B} (a : list A) (b : list B) : length a = length b -> b <> [] -> a <> []. Proof. destruct a, b; cbn; congruence. Qed.
Lemma proc_fits f inp g cap : fCap f = cap -> match fOut f with Some o => (length o <= cap)%nat | None => True end -> ioFilterProcessInOut D inOut same done f inp = Ok g ->
  fCap g = cap /\ match fOut g with Some o => (length o <= cap)%nat | None => True end.
Proof.
  intros Hc Ho E. unfold ioFilterProcessInOut in E. destruct (fOut f) as [o|] eqn:Eo; [|discriminate]. destruct (match inp with Some [] => true | _ => false end); [discriminate|].
  destruct (fFlush D f && isSomeB inp); [discriminate|]. set (f1 := mkFlt D (fD f) _ _ _) in E.
  destruct (fDone D same done f1).
  - destruct (same _ && _); [discriminate|]. injection E as <-. cbn. split; [exact Hc|]. exact Ho.
  - pose proof (proj1 (proj2 (proj2 Hok)) (fD f) inp (fCap f - length o)%nat) as L. destruct (inOut (fD f) inp (fCap f - length o)) as [d a]. cbn [snd] in L.
    destruct (same _ && _); [discriminate|]. injection E as <-. cbn. split; [exact Hc|]. rewrite app_length. lia.
Qed.
Lemma fwd_fits cap : forall fs loc inp fs' inp' sm, lastFits cap fs -> fwd fs loc inp = Ok (fs', inp', sm) -> lastFits cap fs'.
Proof.
  induction fs as [|f fs IH]; intros loc inp fs' inp' sm H E; pose proof (fwd_len _ _ _ _ _ _ E) as HL; cbn [IoGroupModel.fwd] in E; [injection E as <- <- <-; exact I|].
  assert (N : forall (g : flt) i b, lastFits cap (g :: fs) -> (let* (r', o, s') := fwd fs true (fOut g) in Ok (setOut D g o :: r', i, b || s')) = Ok (fs', inp', sm) -> lastFits cap fs').
  { intros g i b Hg Eg. destruct (fwd fs true (fOut g)) as [[[r' o] s']| |] eqn:Ef; cbn [bind] in Eg; try discriminate. injection Eg as <- <- <-. destruct fs as [|f1 fs].
    - cbn in Ef. injection Ef as <- <- <-. exact Hg.
    - apply fwd_len in Ef as HL1. assert (Hne : r' <> []) by (eapply ne_len; [exact HL1|discriminate]). rewrite lastFits_cons by exact Hne. eapply IH; [exact Hg|exact Ef]. }
  assert (Nz : forall g : flt, lastFits cap (g :: fs) -> lastFits cap ((if isSomeB (fOut g) && fDone D same done g && outZero D g then setOut D g None else g) :: fs)).
  { clear. intros g Hg. destruct (isSomeB _ && _ && _); [|exact Hg]. destruct fs; [|exact Hg]. cbn in *. tauto. }
  destruct (isOut (fD f)).
  - destruct (fDone D same done f) eqn:Ed; [eapply N; [|exact E]; specialize (Nz f H); rewrite Ed in Nz; exact Nz|]. destruct (ioFilterProcessInOut D inOut same done f inp) as [g| |] eqn:Ep; cbn [bind] in E; try discriminate.
    assert (Hg : lastFits cap (g :: fs)). { destruct fs as [|f1 fs]; [|exact H]. cbn in H |- *. destruct H. eapply proc_fits; eassumption. }
    destruct (negb (outFull D g) && negb (fDone D same done g)); [injection E as <- <- <-; exact Hg|]. eapply N; [|exact E]. apply Nz, Hg.
  - match type of E with bind ?e _ = _ => destruct e as [g| |] eqn:Ep; cbn [bind] in E; try discriminate end.
    destruct (fwd fs loc inp) as [[[r' o] s']| |] eqn:Ef; cbn [bind] in E; try discriminate. injection E as <- <- <-. destruct fs as [|f1 fs].
    + cbn in Ef. injection Ef as <- <- <-. cbn in H |- *. destruct (fDone D same done f); [injection Ep as <-; exact H|]. unfold ioFilterProcessIn in Ep.
      destruct (match inp with Some [] => true | _ => false end); [discriminate|]. destruct (fFlush D f && isSomeB inp); [discriminate|]. destruct inp; injection Ep as <-; exact H.
    + assert (Hne : r' <> []) by (apply fwd_len in Ef; eapply ne_len; [exact Ef|discriminate]). rewrite lastFits_cons by exact Hne. eapply IH; [exact H|exact Ef].
Qed.
Lemma from_fits cap : forall k fs loc inp fs' inp' sm, lastFits cap fs -> fwdFrom k fs loc inp = Ok (fs', inp', sm) -> lastFits cap fs' /\ length fs' = length fs.
Proof.
  induction k as [|k IH]; intros fs loc inp fs' inp' sm H E; cbn [IoGroupModel.fwdFrom] in E; [split; [eapply fwd_fits; eassumption|eapply fwd_len; exact E]|]. destruct fs as [|f fs]; [discriminate|].
  assert (Hf : fs <> [] -> lastFits cap fs) by (intros Hne; rewrite lastFits_cons in H by exact Hne; exact H).
  destruct (isOut (fD f)).
  - destruct (fwdFrom k fs true (fOut f)) as [[[r' o] s']| |] eqn:Ef; cbn [bind] in E; try discriminate. injection E as <- <- <-. destruct fs as [|f1 fs].
    + destruct k; cbn in Ef; [|discriminate]. injection Ef as <- <- <-. split; [exact H|reflexivity].
    + destruct (IH _ _ _ _ _ _ (Hf ltac:(discriminate)) Ef) as [H1 H2]. split; [|cbn; f_equal; exact H2]. rewrite lastFits_cons; [exact H1|]. eapply ne_len; [exact H2|discriminate].
  - destruct (fwdFrom k fs loc inp) as [[[r' o] s']| |] eqn:Ef; cbn [bind] in E; try discriminate. injection E as <- <- <-. destruct fs as [|f1 fs].
    + destruct k; cbn in Ef; [|discriminate]. injection Ef as <- <- <-. split; [exact H|reflexivity].
    + destruct (IH _ _ _ _ _ _ (Hf ltac:(discriminate)) Ef) as [H1 H2]. split; [|cbn; f_equal; exact H2]. rewrite lastFits_cons; [exact H1|]. eapply ne_len; [exact H2|discriminate].
Qed.
Lemma loop_fits : forall fuel fs cap sm inp fs', lastFits cap fs -> processLoop D isOut inOut procIn same done fuel fs cap sm inp = Ok fs' -> lastFits cap fs'.
Proof.
  induction fuel as [|fuel IH]; intros fs cap sm inp fs' H E; cbn [processLoop] in E; [discriminate|]. destruct (if sm then lastSame D same fs else Some O) as [k|]; [|injection E as <-; exact H].
  destruct (fwdFrom k fs false inp) as [[[fs1 o1] s1]| |] eqn:Ef; cbn [bind] in E; try discriminate. apply (from_fits cap) in Ef as [Ef _]; [|exact H].
  destruct ((length (lastOut D fs1) <? cap)%nat && (sm || s1)); [eapply IH; eassumption|injection E as <-; exact Ef].
Qed.
Lemma process_fits fuel g inp cap out g' out' : (length out <= cap)%nat -> process fuel g inp cap out = Ok (g', out') -> (length out' <= cap)%nat.
Proof.
  intros Hl E. unfold ioFilterGroupProcess in E.
  destruct (processLoop _ _ _ _ _ _ fuel _ cap _ inp) as [fs'| |] eqn:El; cbn [bind] in E; try discriminate. injection E as <- <-.
  assert (H : lastFits cap fs').
  { eapply loop_fits; [|exact El]. clear -Hl. induction (gFlts D g) as [|f [|f1 fs] IH]; [exact I|cbn; auto|]. cbn [setLast]. destruct fs; exact IH. }
  clear -H. induction fs' as [|f [|f1 fs] IH]; [cbn; lia| |apply IH, H]. cbn in *. destruct (fOut f); [apply H|cbn; lia].
Qed.

Hypotheses (Hsz : (0 < size)%nat) (Hb1 : fresh D same bufferNew) (Hb2 : isOut bufferNew = true).
Section W.
Variable (l : list D).
Hypothesis Hfr : Forall (fresh D same) l.
Definition total (st : iowrite D) : list Z := concat (iwWritten D st) ++ iwOutput D st.
Definition wfull (st : iowrite D) : Prop := Forall (fun b => length b = size) (iwWritten D st) /\ (length (iwOutput D st) < size)%nat.
Definition winv (st : iowrite D) (ph : phase) : Prop := ginv ph l (iwGroup D st) (total st).

Lemma write_loop : forall fuel st c st' ph s, winv st ph -> wfull st -> (if gSame (iwGroup D st) then busy ph (Some c) s else offered ph (Some c) s) ->
  ioWriteLoop fuel st c = Ok st' -> winv st' (Idle (s ++ c)) /\ gSame (iwGroup D st') = false /\ wfull st'.
Proof.
  induction fuel as [|fuel IH]; intros st c st' ph s H [Hw Hl] Hb E; cbn [IoGroupModel.ioWriteLoop] in E; [discriminate|].
  destruct (process fuel (iwGroup D st) (Some c) size (iwOutput D st)) as [[g out]| |] eqn:Ep; cbn [bind] in E; try discriminate.
  pose proof (process_fits _ _ _ _ _ _ _ (Nat.lt_le_incl _ _ Hl) Ep) as Hlen.
  destruct (process_ok D isOut inOut procIn same done Hok fuel l (iwGroup D st) (Some c) size (iwOutput D st) ph s (total st) g out Hfr H Hl Hb Ep) as (ph' & a & Hg & Ha & Hb').
  set (st1 := if (size - length out =? 0)%nat then _ else _) in E.
  assert (K : winv st1 ph' /\ wfull st1 /\ iwGroup D st1 = g).
  { unfold st1, winv, wfull, total in *. destruct (size - length out =? 0)%nat eqn:Ez; cbn [iwGroup iwOutput iwWritten].
    - apply Nat.eqb_eq in Ez. split; [|split; [|reflexivity]].
      + rewrite concat_app. cbn [concat]. rewrite !app_nil_r. rewrite Ha, app_assoc. exact Hg.
      + split; [|exact Hsz]. apply Forall_app. split; [exact Hw|]. constructor; [lia|constructor].
    - apply Nat.eqb_neq in Ez. split; [|split; [|reflexivity]].
      + rewrite Ha, app_assoc. exact Hg.
      + split; [exact Hw|lia]. }
  destruct K as (K1 & K2 & K3). destruct (gSame (iwGroup D st1)) eqn:Es.
  - eapply IH; [exact K1|exact K2| |exact E]. rewrite Es. exact Hb'.
  - injection E as <-. split; [|auto]. destruct Hb' as [_ [->| ->]]; [|exact K1]. apply ginv_pend in K1. congruence.
Qed.
Lemma write_ok fuel st c st' s : winv st (Idle s) -> gSame (iwGroup D st) = false -> wfull st -> ioWrite fuel st c = Ok st' -> winv st' (Idle (s ++ c)) /\ gSame (iwGroup D st') = false /\ wfull st'.
Proof.
  intros H Hs Hw E. unfold IoGroupModel.ioWrite in E. destruct c as [|x c]; cbn [emptyB] in E; [injection E as <-; rewrite app_nil_r; auto|].
  eapply write_loop; [exact H|exact Hw| |exact E]. rewrite Hs. split; [discriminate|now left].
Qed.
Lemma close_loop : forall fuel st st' ph s, winv st ph -> wfull st -> (if gSame (iwGroup D st) then busy ph None s else offered ph None s) -> ioWriteClose fuel st = Ok st' ->
  chain D isOut inOut procIn same done l s (map fD (gFlts D (iwGroup D st'))) (concat (iwWritten D st')) /\ iwOutput D st' = [] /\
  exists full rest, iwWritten D st' = full ++ rest /\ Forall (fun b => length b = size) full /\ (rest = [] \/ exists b, rest = [b] /\ (0 < length b < size)%nat).
Proof.
  induction fuel as [|fuel IH]; intros st st' ph s H [Hw Hl] Hb E; cbn [IoGroupModel.ioWriteClose] in E; [discriminate|].
  destruct (process fuel (iwGroup D st) None size (iwOutput D st)) as [[g out]| |] eqn:Ep; cbn [bind] in E; try discriminate.
  pose proof (process_fits _ _ _ _ _ _ _ (Nat.lt_le_incl _ _ Hl) Ep) as Hlen.
  destruct (process_ok D isOut inOut procIn same done Hok fuel l (iwGroup D st) None size (iwOutput D st) ph s (total st) g out Hfr H Hl Hb Ep) as (ph' & a & Hg & Ha & ->).
  assert (Ht : total st ++ a = concat (iwWritten D st) ++ out) by (unfold total; rewrite Ha, app_assoc; reflexivity). rewrite Ht in Hg.
  destruct (gDone g) eqn:Ed; cbn [andb] in E.
  - destruct (ginv_done D isOut inOut procIn same done _ _ _ _ Hg Ed) as (s' & Es & Hc). injection Es as <-.
    destruct ((size - length out =? 0)%nat || negb (emptyB out)) eqn:Ez; cbn [iwGroup] in E; rewrite Ed in E; injection E as <-; cbn [iwGroup iwWritten iwOutput].
    + split; [rewrite concat_app; cbn [concat]; rewrite app_nil_r; exact Hc|]. split; [reflexivity|].
      destruct (Nat.eq_dec (length out) size) as [K|K].
      * exists (iwWritten D st ++ [out]), []. rewrite app_nil_r. split; [reflexivity|]. split; [|now left]. apply Forall_app. split; [exact Hw|]. constructor; [exact K|constructor].
      * exists (iwWritten D st), [out]. split; [reflexivity|]. split; [exact Hw|]. right. exists out. split; [reflexivity|]. replace (size - length out =? 0)%nat with false in Ez by (symmetry; apply Nat.eqb_neq; lia).
        destruct out; [discriminate|]. cbn in *. lia.
    + apply orb_false_iff in Ez as [_ Ez]. destruct out; [|discriminate]. rewrite app_nil_r in Hc. split; [exact Hc|]. split; [reflexivity|]. exists (iwWritten D st), []. rewrite app_nil_r. auto.
  - rewrite orb_false_r in E. set (st1 := if (size - length out =? 0)%nat then _ else _) in E.
    assert (K : winv st1 (End s) /\ wfull st1 /\ iwGroup D st1 = g).
    { unfold st1, winv, wfull, total. destruct (size - length out =? 0)%nat eqn:Ez; cbn [iwGroup iwOutput iwWritten].
      - apply Nat.eqb_eq in Ez. split; [|split; [|reflexivity]].
        + rewrite concat_app. cbn [concat]. rewrite !app_nil_r. exact Hg.
        + split; [|exact Hsz]. apply Forall_app. split; [exact Hw|]. constructor; [lia|constructor].
      - apply Nat.eqb_neq in Ez. split; [exact Hg|]. split; [|reflexivity]. split; [exact Hw|lia]. }
    destruct K as (K1 & K2 & K3). rewrite K3, Ed in E. eapply IH; [exact K1|exact K2| |exact E]. destruct (gSame (iwGroup D st1)); [reflexivity|now right].
Qed.
End W.
Local Notation wB ds := (withBuffer D isOut bufferNew ds).
Lemma writes_ok ds st s : Forall (fresh D same) ds -> writes D isOut inOut procIn same done bufferNew size ds st s ->
  winv (wB ds) st (Idle s) /\ gSame (iwGroup D st) = false /\ wfull st.
Proof.
  intros Hfr H. destruct (open_ok D isOut inOut procIn same done bufferNew size ds Hsz Hfr Hb1 Hb2) as [Hg Hf]. induction H as [|st s fuel c st' H IH E].
  - split; [exact Hg|]. split; [reflexivity|]. split; [constructor|exact Hsz].
  - destruct IH as (I1 & I2 & I3). eapply write_ok; eassumption.
Qed.
End Write.

(** * Functions *)
Section Fun.
Variables (D : Type) (isOut : D -> bool) (inOut : D -> option (list Z) -> nat -> D * list Z) (procIn : D -> list Z -> D) (same : D -> bool)
  (done : D -> option bool).
Lemma chain_functions ds s ds' t fs : chain D isOut inOut procIn same done ds s ds' t -> areFunctions isOut inOut same done ds fs -> t = compose fs s.
Proof.
  intros H. revert fs. induction H as [s|d d' ds ds' s o t Ho Hc H IH|d d' ds ds' s t Ho Hc H IH]; intros fs F; inversion F as [|x f ds1 fs1 F1 F2]; subst.
  - reflexivity.
  - destruct f as [f|]; [|congruence]. destruct F1 as [_ F1]. cbn. rewrite <- (F1 _ _ _ Hc). apply IH, F2.
  - destruct f as [f|]; [destruct F1; congruence|]. cbn. apply IH, F2.
Qed.
End Fun.

(** * The buffer filter *)
Definition bufSame (d : nat * bool) : bool := snd d.
Definition bufDone (d : nat * bool) : option bool := None.
Lemma buffer_ran d s p o : ran (nat * bool) ioBufferProcess bufSame (O, false) d s p o ->
  match p with None => d = (O, false) /\ o = s | Some c => exists k, d = (k, true) /\ (k < length c)%nat /\ o = s ++ firstn k c end.
Proof.
  assert (Step : forall k c n d' a, (k <= length c)%nat -> c <> [] -> ioBufferProcess (k, false) (Some c) n = (d', a) \/ ioBufferProcess (k, true) (Some c) n = (d', a) ->
    snd d' = false /\ d' = (O, false) /\ firstn k c ++ a = c \/ exists j, d' = (j, true) /\ (j < length c)%nat /\ firstn k c ++ a = firstn j c).
  { intros k c n d' a Hk Hc E. assert (E' : ioBufferProcess (k, false) (Some c) n = (d', a)) by (destruct E as [E|E]; exact E). clear E. unfold ioBufferProcess in E'. cbn [fst] in E'. set (m := Nat.min (length c - k) n) in *.
    assert (F : firstn k c ++ firstn m (skipn k c) = firstn (k + m) c).
    { rewrite <- (firstn_skipn k c) at 3. rewrite firstn_app. rewrite firstn_length_le by lia. replace (k + m - k)%nat with m by lia. f_equal. symmetry. apply firstn_all2. rewrite firstn_length. lia. }
    destruct (k + m =? length c)%nat eqn:Ek; injection E' as <- <-.
    - apply Nat.eqb_eq in Ek. left. rewrite F, Ek, firstn_all. auto.
    - apply Nat.eqb_neq in Ek. right. exists (k + m)%nat. rewrite F. split; [reflexivity|]. split; [lia|reflexivity]. }
  induction 1 as [|d s o c n d' a H IH Hc Hn E|d s o c n d' a H IH Hn E].
  - auto.
  - destruct IH as [-> ->]. destruct (Step O c n d' a) as [(S1 & -> & S2)|(j & -> & Hj & S2)]; [lia|exact Hc|auto| |].
    + cbn. cbn in S2. subst. auto.
    + cbn [bufSame snd]. exists j. split; [reflexivity|]. split; [exact Hj|]. cbn in S2. now rewrite S2.
  - destruct IH as (k & -> & Hk & ->). destruct (Step k c n d' a) as [(S1 & -> & S2)|(j & -> & Hj & S2)]; [lia|destruct c; cbn in *; [lia|discriminate]|auto| |].
    + cbn. rewrite <- app_assoc, S2. auto.
    + cbn [bufSame snd]. exists j. split; [reflexivity|]. split; [exact Hj|]. rewrite <- app_assoc, S2. reflexivity.
Qed.
Lemma buffer_identity d s o : complete (nat * bool) ioBufferProcess bufSame bufDone (O, false) d s o -> o = s.
Proof.
  intros [H _]. induction H as [d s o H|d s o n d' a H IH Hf Hn E].
  - apply buffer_ran in H. apply H.
  - cbn in E. injection E as <- <-. now rewrite app_nil_r.
Qed.
