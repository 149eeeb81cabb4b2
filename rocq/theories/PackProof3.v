From Verif Require Import Base ConvertModel ConvertSpec ConvertProof PackModel PackSpec PackProof PackProof2.
Open Scope Z_scope.

Lemma pack_read_gen fs b ops outs l' tail : enc 0 fs b -> reads fs 0 ops outs l' -> noCont fs l' (idMax + 1) -> packRead (b ++ 0 :: tail) ops = Ok (outs, tail).
Proof.
  intros He Hr Hn. assert (A : at_ fs tail 0 (pckReadNew (b ++ 0 :: tail))).
  { apply at_tag with (pre := []) (rest := fs) (b := b); try reflexivity; try lia; try assumption. intros j v []. }
  destruct (reads_run fs 0 ops outs l' Hr tail _ b A He ltac:(unfold idMax; lia)) as (r1 & E1 & A1 & S1 & T1 & L1). unfold packRead. rewrite E1. cbn [bind].
  unfold pckReadEnd. rewrite S1. cbn [pckReadNew prStack].
  destruct (end_spec fs tail l' r1 A1 L1 Hn) as (r2 & v & E2 & B2); [intros j w Hj; pose proof (enc_gt _ _ _ He _ _ Hj); lia|]. rewrite E2. cbn [bind]. now rewrite B2.
Qed.

(** Mirrored calls *)
Definition rel (l n p : Z) (x : bool) : Prop := l <= p /\ 0 <= l /\ 0 <= n /\ (x = true -> p = l + n).
Lemma writes_aligned_gt l n ops fs : writes l n ops fs -> forall p x, rel l n p x -> aligned p x ops -> forall j v, In (j, v) fs -> p < j.
Proof.
  induction 1 as [l n|l n ops fs H IH|l n id d ops fs H IH|l n id i dw d s ops fs Hd Hi Hr Hs H IH|l n t id i sub subfs ops fs Ht Hi Hr Hs IHs H IH]; intros p x (R1 & R2 & R3 & R4) A j v Hj.
  - destruct Hj.
  - inversion A; subst. enough (p + 1 < j) by lia. eapply IH; [|eassumption|eassumption]. repeat split; try lia; intros Q; specialize (R4 Q); lia.
  - inversion A as [|?|? ? ? i ? ? Hi Hp Hn|? ? ? ? ? ? ? ? Hd|]; subst.
    + enough ((if id =? 0 then p + 1 else id) < j) by lia. eapply IH; [|exact Hn|eassumption]. repeat split; try lia. intros Q. apply andb_prop in Q. destruct Q as (Q1 & Q2). specialize (R4 Q1). lia.
    + destruct Hd; congruence.
  - inversion A as [|?|? ? ? i' ? ? Hi' Hp Hn|? ? ? i' ? ? ? ? Hd' Hx Hi' Hp Hn|]; subst.
    + destruct Hd; congruence.
    + assert (E : (if id =? 0 then l + n + 1 else id) = (if id =? 0 then p + 1 else id)) by (destruct (Z.eqb_spec id 0); [rewrite R4; [lia|auto]|reflexivity]).
      destruct Hj as [[= <- <-]|Hj]; [lia|]. enough ((if id =? 0 then p + 1 else id) < j) by lia. eapply IH; [|exact Hn|eassumption]. repeat split; lia.
  - inversion A as [|?| | |? ? ? ? i' ? ? Hx Hi' Hp Hsub Hn]; subst.
    assert (E : (if id =? 0 then l + n + 1 else id) = (if id =? 0 then p + 1 else id)) by (destruct (Z.eqb_spec id 0); [rewrite R4; [lia|auto]|reflexivity]).
    destruct Hj as [[= <- <-]|Hj]; [lia|]. enough ((if id =? 0 then p + 1 else id) < j) by lia. eapply IH; [|exact Hn|eassumption]. repeat split; lia.
Qed.

Lemma mirror_reads l n ops fs : writes l n ops fs -> forall p x pre, rel l n p x -> aligned p x ops -> (forall j v, In (j, v) pre -> j <= l) ->
  exists p', reads (pre ++ fs) p (map mirror ops) (map expect ops) p' /\ (forall j v, In (j, v) (pre ++ fs) -> j <= p').
Proof.
  induction 1 as [l n|l n ops fs H IH|l n id d ops fs H IH|l n id i dw d s ops fs Hd Hi Hr Hs H IH|l n t id i sub subfs ops fs Ht Hi Hr Hs IHs H IH]; intros p x pre (R1 & R2 & R3 & R4) A P.
  - exists p. split; [constructor|]. intros j v Hj. rewrite app_nil_r in Hj. specialize (P _ _ Hj). lia.
  - inversion A as [|? ? ? Hm Hn| | |]; subst. assert (R : rel l (n + 1) (p + 1) x) by (repeat split; try lia; intros Q; specialize (R4 Q); lia).
    pose proof (writes_aligned_gt _ _ _ _ H _ _ R Hn) as G. destruct (IH _ _ pre R Hn P) as (p' & E & U). exists p'. split; [|exact U]. cbn [map mirror expect].
    assert (N : forall j v, In (j, v) (pre ++ fs) -> j <= p \/ p + 1 < j) by (intros j v Hj; apply in_app_iff in Hj; destruct Hj as [Hj|Hj]; [specialize (P _ _ Hj); lia|specialize (G _ _ Hj); lia]).
    apply r_null with (i := p + 1); auto; try lia.
    + intros j t sub Hj Hj'. apply N in Hj. lia.
    + intros v Hv. apply N in Hv. lia.
  - inversion A as [|?|? ? ? i ? ? Hi Hp Hn|? ? ? ? ? ? ? ? Hd|]; subst; [|destruct Hd; congruence]. set (i := if id =? 0 then p + 1 else id) in *.
    assert (R : rel l (n + 1) i (x && (i =? p + 1))). { repeat split; try lia. intros Q. apply andb_prop in Q. destruct Q as (Q1 & Q2). specialize (R4 Q1). lia. }
    pose proof (writes_aligned_gt _ _ _ _ H _ _ R Hn) as G. destruct (IH _ _ pre R Hn P) as (p' & E & U). exists p'. split; [|exact U]. cbn [map mirror expect].
    assert (N : forall j v, In (j, v) (pre ++ fs) -> j <= p \/ i < j) by (intros j v Hj; apply in_app_iff in Hj; destruct Hj as [Hj|Hj]; [specialize (P _ _ Hj); lia|specialize (G _ _ Hj); lia]).
    apply r_default with (i := i); auto; try lia.
    + intros j t sub Hj Hj'. apply N in Hj. lia.
    + intros v Hv. apply N in Hv. lia.
  - inversion A as [|?|? ? ? i' ? ? Hi' Hp Hn|? ? ? i' ? ? ? ? Hd' Hx Hi' Hp Hn|]; subst; [destruct Hd; congruence|].
    assert (E : (if id =? 0 then l + n + 1 else id) = (if id =? 0 then p + 1 else id)) by (destruct (Z.eqb_spec id 0); [rewrite R4; [lia|auto]|reflexivity]). rewrite E in *. set (i := if id =? 0 then p + 1 else id) in *.
    assert (R : rel i 0 i true) by (repeat split; lia). pose proof (writes_aligned_gt _ _ _ _ H _ _ R Hn) as G.
    destruct (IH i true (pre ++ [(i, VS s)]) R Hn) as (p' & Er & U). { intros j v Hj. apply in_app_iff in Hj. destruct Hj as [Hj|[[= <- _]|[]]]; [specialize (P _ _ Hj); lia|lia]. }
    rewrite <- app_assoc in Er, U. exists p'. split; [|exact U]. cbn [map mirror expect mirrorKind]. apply r_value with (i := i); auto; try lia.
    + intros j t sub Hj Hj'. apply in_app_iff in Hj. destruct Hj as [Hj|[[= Hj]|Hj]]; [specialize (P _ _ Hj); lia|specialize (G _ _ Hj); lia].
    + apply in_app_iff. right. now left.
  - inversion A as [|?| | |? ? ? ? i' ? ? Hx Hi' Hp Hsub Hn]; subst.
    assert (E : (if id =? 0 then l + n + 1 else id) = (if id =? 0 then p + 1 else id)) by (destruct (Z.eqb_spec id 0); [rewrite R4; [lia|auto]|reflexivity]). rewrite E in *. set (i := if id =? 0 then p + 1 else id) in *.
    assert (R : rel i 0 i true) by (repeat split; lia). pose proof (writes_aligned_gt _ _ _ _ H _ _ R Hn) as G.
    destruct (IH i true (pre ++ [(i, VC t subfs)]) R Hn) as (p' & Er & U). { intros j v Hj. apply in_app_iff in Hj. destruct Hj as [Hj|[[= <- _]|[]]]; [specialize (P _ _ Hj); lia|lia]. }
    destruct (IHs 0 true [] ltac:(repeat split; lia) Hsub) as (ps & Es & Us); [intros j v []|]. cbn [app] in Es, Us.
    rewrite <- app_assoc in Er, U. exists p'. split; [|exact U]. cbn [map mirror expect]. apply r_cont with (i := i) (sub := subfs) (ls := ps); auto; try lia.
    + intros j t' sub' Hj Hj'. apply in_app_iff in Hj. destruct Hj as [Hj|[[= <- _ _]|Hj]]; [specialize (P _ _ Hj); lia|lia|specialize (G _ _ Hj); lia].
    + apply in_app_iff. right. now left.
    + intros j t' sub' Hj Hj'. specialize (Us _ _ Hj). lia.
Qed.

(** Reading arbitrary bytes *)
Definition okd {A} (P : A -> Prop) (x : res A) : Prop := match x with Ok a => P a | Err e => e = EFormat | UB => False end.
Lemma okd_bind {A B} (P : A -> Prop) (Q : B -> Prop) x f : okd P x -> (forall a, P a -> okd Q (f a)) -> okd Q (bind x f).
Proof. destruct x; cbn; auto. Qed.
Lemma okd_imp {A} (P Q : A -> Prop) x : okd P x -> (forall a, P a -> Q a) -> okd Q x.
Proof. destruct x; cbn; auto. Qed.
Definition shorter (b : list Z) (p : Z * list Z) : Prop := (length (snd p) <= length b)%nat.
Lemma fromVarInt_len b : okd (shorter b) (fromVarInt b).
Proof.
  unfold fromVarInt. generalize 0 at 1 as idx. generalize 0 as acc. revert b. induction varIntMax as [|n IH]; intros b acc idx; [reflexivity|]. cbn [varIntRead]. destruct b as [|x b]; [reflexivity|].
  destruct (x <? 128); [cbn; unfold shorter; cbn; lia|]. eapply okd_imp; [apply IH|]. intros [v r]. unfold shorter. cbn. lia.
Qed.
Lemma okd_var {B} b (Q : B -> Prop) f : (forall v r, (length r <= length b)%nat -> okd Q (f (v, r))) -> okd Q (bind (fromVarInt b) f).
Proof. intros H. eapply okd_bind; [apply fromVarInt_len|]. intros [v r]. apply H. Qed.
Definition same_or_shorter (r r' : pread) : Prop := (length (prBuf r') <= length (prBuf r))%nat.
Lemma tagNext_okd r : okd (fun r' => (length (prBuf r') < length (prBuf r))%nat) (pckReadTagNext r).
Proof.
  unfold pckReadTagNext. destruct (prBuf r) as [|tag b0]; [reflexivity|]. destruct (tag =? 0); [cbn; lia|].
  apply okd_bind with (P := fun p => (length (snd p) <= length b0)%nat).
  { destruct (_ =? 15); [|cbn; lia]. apply okd_var. intros v b H. cbn. lia. }
  intros [t b1] H1. cbn [snd] in H1. destruct (negb (typeKnown t)); [reflexivity|].
  apply okd_bind with (P := fun p => (length (snd p) <= length b1)%nat).
  { destruct (typeMulti t); [destruct (negb _)|destruct (typeSingle t)].
    - apply okd_bind with (P := fun p => (length (snd p) <= length b1)%nat); [destruct (negb _); [apply okd_var; intros; cbn; lia|cbn; lia]|]. intros [id b] H. cbn [snd] in H. apply okd_var. intros. cbn. lia.
    - apply okd_bind with (P := fun p => (length (snd p) <= length b1)%nat); [destruct (negb _); [apply okd_var; intros; cbn; lia|cbn; lia]|]. intros [id b] H. cbn [snd] in H. cbn. lia.
    - apply okd_bind with (P := fun p => (length (snd p) <= length b1)%nat); [destruct (negb _); [apply okd_var; intros; cbn; lia|cbn; lia]|]. intros [id b] H. cbn [snd] in H. cbn. lia.
    - apply okd_bind with (P := fun p => (length (snd p) <= length b1)%nat); [destruct (negb _); [apply okd_var; intros; cbn; lia|cbn; lia]|]. intros [id b] H. cbn [snd] in H. cbn. lia. }
  intros [[id v] b2] H2. cbn [snd] in H2. cbv zeta.
  apply okd_bind with (P := fun p => (length (snd p) <= length b2)%nat); [destruct (_ && _); [apply fromVarInt_len|cbn; lia]|]. intros [size b3] H3. cbn [snd] in H3. cbn. lia.
Qed.
Lemma take_okd n b : okd (fun p => (length (snd p) <= length b)%nat) (takeBytes n b).
Proof. unfold takeBytes. destruct (_ <? _); [reflexivity|]. cbn. rewrite skipn_length. lia. Qed.
Lemma loop_okd id t peek fuel : forall r, (length (prBuf r) + (if (prId r =? 0)%Z then 0 else 1) < fuel)%nat -> okd (fun _ => True) (readTagLoop fuel r id t peek).
Proof.
  induction fuel as [|fuel IH]; intros r Hf; [lia|]. cbn [readTagLoop].
  apply okd_bind with (P := fun r1 => (length (prBuf r1) + 1 < S fuel)%nat).
  { destruct (prId r =? 0); [eapply okd_imp; [apply tagNext_okd|]; cbn; intros; lia|cbn; lia]. }
  intros r1 H1. destruct (id <? prId r1); [exact I|]. destruct (id =? prId r1); [destruct peek; [exact I|]; destruct (negb (prType r1 =? t)); [reflexivity|exact I]|].
  unfold consumeBuffer. eapply okd_bind with (P := fun r2 => (length (prBuf r2) < fuel)%nat).
  { eapply okd_bind; [apply take_okd|]. intros [d b] H. cbn in H |- *. lia. }
  intros r2 H2. apply IH. cbn. lia.
Qed.
Lemma tag_okd r id t peek : okd (fun _ => True) (pckReadTag r id t peek).
Proof. unfold pckReadTag. destruct (_ && _); [reflexivity|]. eapply okd_bind; [apply loop_okd; destruct (prId r =? 0); lia|]. intros; exact I. Qed.
Lemma null_okd r id : okd (fun _ => True) (pckReadNull r id).
Proof. unfold pckReadNull. eapply okd_bind; [apply tag_okd|]. intros [[r1 i] v] _. destruct (_ <? _); exact I. Qed.
Lemma scalar_okd r k id d : okd (fun _ => True) (pckReadScalar r k id d).
Proof.
  unfold pckReadScalar. eapply okd_bind; [apply null_okd|]. intros [[r1 i] n] _. destruct n; [exact I|]. eapply okd_bind; [apply tag_okd|]. intros [[r2 i2] v] _.
  assert (D : forall mk, okd (fun _ : pread * option scalar => True) (readData r2 mk)) by (intros mk; unfold readData; eapply okd_bind; [apply take_okd|]; intros [? ?] _; exact I).
  destruct k; try exact I; try apply D; destruct (negb _); try exact I; apply D.
Qed.
Fixpoint ropSize (o : rop) : nat := match o with RCont _ _ ops => S (list_sum (map ropSize ops)) | _ => 1%nat end.
Lemma runRs_okd_sz n : forall ops, (list_sum (map ropSize ops) < n)%nat -> forall r, okd (fun _ => True) (runRs r ops).
Proof.
  induction n as [|n IH]; intros ops Hn; [lia|]. induction ops as [|o ops IHo]; intros r; [exact I|]. cbn [runRs]. cbn [map list_sum fold_right] in Hn. fold (list_sum (map ropSize ops)) in Hn.
  eapply okd_bind with (P := fun _ => True).
  - destruct o as [k id d|id|t id sub]; cbn [runR].
    + eapply okd_bind; [apply scalar_okd|]. intros [? ?] _. exact I.
    + eapply okd_bind; [apply null_okd|]. intros [[? ?] ?] _. exact I.
    + eapply okd_bind with (P := fun _ => True); [unfold pckReadBegin; eapply okd_bind; [apply tag_okd|]; intros [[? ?] ?] _; exact I|]. intros r1 _. rewrite go_runRs. cbn [ropSize] in Hn.
      eapply okd_bind; [apply IH; lia|]. intros [r2 l] _. eapply okd_bind with (P := fun _ => True); [|intros; exact I].
      unfold pckReadEndCont. destruct (prStack r2); [reflexivity|]. destruct (_ =? _); [|reflexivity]. eapply okd_bind; [apply tag_okd|]. intros [[? ?] ?] _. exact I.
  - intros [r' x] _. eapply okd_bind; [apply IHo; destruct o; cbn [ropSize] in Hn; lia|]. intros [? ?] _. exact I.
Qed.
Lemma packRead_okd b ops : okd (fun _ => True) (packRead b ops).
Proof.
  unfold packRead. eapply okd_bind; [apply (runRs_okd_sz (S (list_sum (map ropSize ops)))); lia|]. intros [r l] _. eapply okd_bind with (P := fun _ => True); [|intros; exact I].
  unfold pckReadEnd. destruct (prStack r); [|reflexivity]. eapply okd_bind; [apply tag_okd|]. intros [[? ?] ?] _. exact I.
Qed.

(** Calls that are rejected *)
Lemma runRs_app a : forall r b, runRs r (a ++ b) = let* (r1, x) := runRs r a in let* (r2, y) := runRs r1 b in Ok (r2, x ++ y).
Proof.
  induction a as [|o a IH]; intros r b; cbn [app runRs bind].
  - destruct (runRs r b) as [[r2 y]| |]; reflexivity.
  - destruct (runR r o) as [[r' x]| |]; cbn [bind]; [|reflexivity..]. rewrite IH. destruct (runRs r' a) as [[r1 xs]| |]; cbn [bind]; [|reflexivity..]. destruct (runRs r1 b) as [[r2 y]| |]; reflexivity.
Qed.
Lemma reads_state fs b ops outs l tail : enc 0 fs b -> reads fs 0 ops outs l -> exists r1, runRs (pckReadNew (b ++ 0 :: tail)) ops = Ok (r1, outs) /\ at_ fs tail l r1 /\ l <= idMax.
Proof.
  intros He Hr. assert (A : at_ fs tail 0 (pckReadNew (b ++ 0 :: tail))).
  { apply at_tag with (pre := []) (rest := fs) (b := b); try reflexivity; try lia; try assumption. intros j v []. }
  destruct (reads_run fs 0 ops outs l Hr tail _ b A He ltac:(unfold idMax; lia)) as (r1 & E1 & A1 & S1 & T1 & L1). eauto.
Qed.
Lemma old_id fs outer l r o : at_ fs outer l r -> 0 < ropId o <= l -> runR r o = Err EFormat.
Proof.
  intros A H. destruct (at_nonneg _ _ _ _ A) as (_ & L).
  assert (T : forall t peek, pckReadTag r (ropId o) t peek = Err EFormat) by (intros t peek; unfold pckReadTag; rewrite L; destruct (Z.eqb_spec (ropId o) 0); [lia|]; destruct (Z.leb_spec (ropId o) l); [reflexivity|lia]).
  destruct o; cbn [ropId] in *; cbn [runR]; unfold pckReadScalar, pckReadNull, pckReadBegin; now rewrite T.
Qed.
Lemma wrong_type fs outer l r o i v t : at_ fs outer l r -> i = idx (ropId o) l -> l < i <= idMax -> noCont fs l i -> In (i, v) fs -> ropType o = Some t -> t <> vType v -> runR r o = Err EFormat.
Proof.
  intros Hat Hi Hr Hn Hin Ht Hne. assert (T : forall l1 r1 id, at_ fs outer l1 r1 -> l <= l1 -> i = idx id l1 -> l1 < i -> pckReadTag r1 id t false = Err EFormat).
  { intros l1 r1 id A L I1 L1. assert (Hn1 : noCont fs l1 i) by (intros j t' sub Hj Hj'; eapply Hn; [exact Hj|lia]).
    destruct (readTag_spec fs outer l1 r1 id t false i A I1 ltac:(unfold uintMax, idMax, two32 in *; lia) Hn1) as (r2 & l2 & B1 & B1' & B2 & B3 & B4 & B5 & B6 & B7). rewrite B7.
    destruct (at_lookup fs outer l2 r2 i B2 B3 ltac:(lia) ltac:(lia)) as (L1' & L2). destruct (L2 _ Hin) as (Ty & Va). assert (Id : i = prId r2) by (apply L1'; eauto).
    rewrite <- Id, Z.ltb_irrefl, Ty. apply Z.eqb_neq in Hne. rewrite Z.eqb_sym, Hne. reflexivity. }
  destruct o as [k id d|id|t' id ops]; cbn [ropId ropType] in *; [|discriminate|]; injection Ht as <-; cbn [runR].
  - unfold pckReadScalar. destruct (readNull_spec fs outer l r id i Hat Hi Hr Hn) as [(_ & r1 & l1 & A1 & A1' & A2 & A3 & A4 & A5 & A6)|(A & _)]; [|exfalso; now apply (A v)].
    rewrite A6. cbn [bind]. rewrite (T l1 r1 i); [reflexivity|auto|lia| |lia]. unfold idx. destruct (Z.eqb_spec i 0); [destruct (at_nonneg _ _ _ _ Hat); lia|reflexivity].
  - unfold pckReadBegin. rewrite (T l r id); [reflexivity|auto|lia|auto|lia].
Qed.
