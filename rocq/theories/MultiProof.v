(** Lemmas on reading ranges of several files. *)
From Verif Require Import Base Str MultiModel MultiSpec.
Open Scope Z_scope.

Definition B64 : Z := 18446744073709551616.
Lemma wrap_id x : 0 <= x < B64 -> wrap x = x.
Proof. intros H. unfold wrap. now rewrite Z.mod_small. Qed.
Lemma no_limit : NO_LIMIT = B64 - 1. Proof. reflexivity. Qed.

Section Files.
Variable content : str -> option str -> option (list Z).

Definition data (q : req) : list Z := match content (qFile q) (qVer q) with None => [] | Some d => cut d (qOff q) (qLim q) end.
Definition fresh (q : req) : stream := mkStream (data q) false.
Definition present (q : req) : Prop := content (qFile q) (qVer q) <> None.

Lemma openAll_inv l : forall new, openAll content l = Ok new -> new = map fresh l.
Proof.
  induction l as [|q l IH]; intros new; cbn [openAll]; [now intros [= <-]|]. unfold openReq, fresh, data. destruct (content (qFile q) (qVer q)) eqn:C; cbn [bind]; [|discriminate].
  destruct (openAll content l) as [ss| |]; cbn [bind]; try discriminate. intros [= <-]. cbn [map]. rewrite C. now rewrite (IH _ eq_refl).
Qed.
Lemma openAll_ok l : Forall present l -> openAll content l = Ok (map fresh l).
Proof.
  induction 1 as [|q l P F IH]; [reflexivity|]. cbn [openAll map]. unfold openReq, fresh, data, present in *. destruct (content (qFile q) (qVer q)) eqn:C; [|congruence]. cbn [bind]. now rewrite IH.
Qed.
Lemma openAll_err l e : openAll content l = Err e -> e = EFileMissing /\ Exists (fun q => content (qFile q) (qVer q) = None) l.
Proof.
  induction l as [|q l IH]; cbn [openAll]; [discriminate|]. unfold openReq. destruct (content (qFile q) (qVer q)) eqn:C; cbn [bind]; [|intros [= <-]; split; [reflexivity|now left]].
  destruct (openAll content l) as [ss|e2|]; cbn [bind]; try discriminate. intros [= <-]. destruct (IH eq_refl). split; [assumption|now right].
Qed.
Lemma openAll_ub l : openAll content l <> UB.
Proof. induction l as [|q l IH]; cbn [openAll]; [discriminate|]. unfold openReq. destruct (content _ _); cbn [bind]; [|discriminate]. destruct (openAll content l); cbn [bind]; congruence. Qed.

(** The requests with what is left of their files *)
Fixpoint pairs (reqs : list req) (queue : list stream) : list (req * list Z) :=
  match reqs, queue with
  | [], _ => []
  | q :: r, [] => (q, data q) :: pairs r []
  | q :: r, s :: ss => (q, sData s) :: pairs r ss
  end.
Lemma pairs_fresh reqs : forall k, pairs reqs (map fresh (firstn k reqs)) = pairs reqs [].
Proof. induction reqs as [|q r IH]; intros [|k]; cbn; auto. now rewrite IH. Qed.
Lemma pairs_fill queue : forall reqs k, pairs reqs (queue ++ map fresh (firstn k (skipn (length queue) reqs))) = pairs reqs queue.
Proof. induction queue as [|s queue IH]; intros reqs k; [apply pairs_fresh|]. destruct reqs as [|q r]; [reflexivity|]. cbn. now rewrite IH. Qed.
Lemma pairs_app reqs : forall queue q, (length queue <= length reqs)%nat -> pairs (reqs ++ [q]) queue = pairs reqs queue ++ [(q, data q)].
Proof.
  induction reqs as [|r reqs IH]; intros [|s queue] q L; cbn in *; try lia; try reflexivity; now rewrite IH by (cbn; lia).
Qed.

Definition live (m : multi) : Prop := Forall (fun s => sEof s = false) (mQueue m) /\ (length (mQueue m) <= length (mReqs m))%nat.

Lemma fill_spec qm prelim m m2 : live m -> fill content qm prelim m = Ok m2 ->
  live m2 /\ mReqs m2 = mReqs m /\ pairs (mReqs m2) (mQueue m2) = pairs (mReqs m) (mQueue m) /\
  ((0 < qm)%nat -> prelim = false -> mEof m = false -> (mEof m2 = true <-> mReqs m = []) /\ (mQueue m2 = [] <-> mReqs m = [])) /\
  (prelim = true -> mEof m2 = mEof m /\ ((length (mQueue m) < length (mReqs m))%nat -> (length (mQueue m2) < length (mReqs m2))%nat)).
Proof.
  intros (S & L) H. unfold fill in H.
  set (n := length (mQueue m)) in *. set (found := skipn n (if prelim then removelast (mReqs m) else mReqs m)) in *.
  assert (K : exists k, (if (n <? qm)%nat then openAll content (firstn (qm - n) found) else Ok []) = openAll content (firstn k (skipn n (mReqs m))) /\ (prelim = true -> (k <= pred (length (mReqs m)) - n)%nat) /\ ((n < qm)%nat -> prelim = false -> k = (qm - n)%nat)).
  { destruct (n <? qm)%nat eqn:N; [|exists 0%nat; split; [reflexivity|split; intros; lia]]. subst found. destruct prelim.
    - exists (Nat.min (qm - n) (pred (length (mReqs m)) - n)). split; [|split; intros; [lia|discriminate]]. rewrite removelast_firstn_len, skipn_firstn_comm, firstn_firstn. reflexivity.
    - exists (qm - n)%nat. split; [reflexivity|split; [discriminate|reflexivity]]. }
  destruct K as (k & K & KP & KF). rewrite K in H. clear K. clearbody found.
  destruct (openAll content (firstn k (skipn n (mReqs m)))) as [new| |] eqn:O; cbn [bind] in H; try discriminate. apply openAll_inv in O. injection H as <-. unfold live. cbn [mReqs mQueue mEof].
  assert (LN : length new = Nat.min k (length (mReqs m) - n)) by (rewrite O, map_length, firstn_length, skipn_length; reflexivity).
  repeat split.
  - apply Forall_app. split; [assumption|]. rewrite O. apply Forall_forall. intros s I. apply in_map_iff in I as (q & <- & _). reflexivity.
  - rewrite app_length. fold n. lia.
  - rewrite O. apply pairs_fill.
  - subst prelim. destruct (mQueue m ++ new) eqn:Q; cbn [negb].
    + intros _. apply app_eq_nil in Q as (Q1 & Q2). subst n new. rewrite Q1 in *. cbn [length] in *. rewrite Q2 in LN. cbn [length] in LN. rewrite KF in LN by (assumption || reflexivity). destruct (mReqs m); [reflexivity|cbn [length] in LN; lia].
    + congruence.
  - intros R. rewrite R in *. cbn [length] in L. assert (Q : mQueue m = []) by (destruct (mQueue m); [reflexivity|cbn in *; lia]). rewrite Q. cbn [length] in LN. destruct new; [|cbn [length] in LN; lia]. cbn. now subst prelim.
  - intros Q. apply app_eq_nil in Q as (Q1 & Q2). assert (n = 0)%nat by (subst n; now rewrite Q1). rewrite Q2 in LN. cbn [length] in LN. rewrite KF in LN by (lia || assumption). destruct (mReqs m); [reflexivity|cbn [length] in LN; lia].
  - intros R. rewrite R in *. cbn [length] in L. assert (Q : mQueue m = []) by (destruct (mQueue m); [reflexivity|cbn in *; lia]). rewrite Q. cbn [length] in LN. destruct new; [reflexivity|cbn [length] in LN; lia].
  - subst prelim. destruct (mQueue m ++ new); reflexivity.
  - intros LT. rewrite app_length. fold n. specialize (KP H). fold n in LT. lia.
Qed.
Lemma fill_ok qm prelim m : Forall present (mReqs m) -> exists m2, fill content qm prelim m = Ok m2.
Proof.
  intros P. unfold fill. set (f := firstn _ _). assert (F : Forall present f).
  { subst f. rewrite Forall_forall in *. intros q I. apply P. assert (J : In q (if prelim then removelast (mReqs m) else mReqs m)) by (rewrite <- (firstn_skipn (length (mQueue m))), in_app_iff; right; rewrite <- (firstn_skipn (qm - length (mQueue m))), in_app_iff; now left).
    destruct prelim; [|assumption]. rewrite removelast_firstn_len in J. rewrite <- (firstn_skipn (pred (length (mReqs m)))), in_app_iff. now left. }
  destruct (_ <? _)%nat; [rewrite (openAll_ok _ F)|]; cbn [bind]; eauto.
Qed.
Lemma fill_err qm prelim m : fill content qm prelim m <> UB /\ forall e, fill content qm prelim m = Err e -> e = EFileMissing.
Proof.
  unfold fill. destruct (_ <? _)%nat; cbn [bind]; [|split; discriminate]. destruct (openAll content _) eqn:O; cbn [bind]; split; try discriminate; try (now apply openAll_ub in O).
  intros e2 [= <-]. now apply openAll_err in O.
Qed.

(** What is left to be given of a file of which [rs] are wanted, of the first of them [done] having been given *)
Fixpoint left (rs : list rng) (done : Z) (d : list Z) : list Z :=
  match rs with
  | a :: ((b :: _) as t) => firstn (Z.to_nat (rLim a - done)) d ++ left t 0 (skipn (Z.to_nat (rLim a - done) + Z.to_nat (rOff b - (rOff a + rLim a))) d)
  | _ => d
  end.
Lemma left_nil rs : forall done, left rs done [] = [].
Proof. induction rs as [|a [|b t] IH]; intros done; try reflexivity. cbn [left] in *. now rewrite firstn_nil, skipn_nil, IH. Qed.
Lemma left_eq a b t done d : left (a :: b :: t) done d = firstn (Z.to_nat (rLim a - done)) d ++ left (b :: t) 0 (skipn (Z.to_nat (rLim a - done) + Z.to_nat (rOff b - (rOff a + rLim a))) d).
Proof. reflexivity. Qed.
Definition leftP (p : req * list Z) : list Z := left (qRanges (fst p)) (qRead (fst p)) (snd p).
Definition rem (m : multi) : list Z := concat (map leftP (pairs (mReqs m) (mQueue m))).
Definition cost (p : req * list Z) : nat := length (snd p) + length (qRanges (fst p)) + 1.
Definition total (l : list (req * list Z)) : nat := fold_right (fun p n => (cost p + n)%nat) 0%nat l.

Fixpoint chain (rs : list rng) : Prop :=
  match rs with
  | [] => True
  | a :: t => 0 <= rOff a /\ 0 <= rLim a /\ rOff a + rLim a < B64 - 1 /\ match t with [] => True | b :: _ => rOff a + rLim a <= rOff b end /\ chain t
  end.
Definition okReq (q : req) : Prop := chain (qRanges q) /\ 0 <= qRead q /\ match qRanges q with a :: _ :: _ => qRead q <= rLim a | _ => True end.
Definition okM (m : multi) : Prop := live m /\ Forall okReq (mReqs m) /\ (mEof m = true <-> mReqs m = []) /\ (mQueue m = [] <-> mReqs m = []).

Lemma readIo_spec s n e : (sEof s = true -> sData s = []) ->
  fst (readIo s n e) = firstn n (sData s) /\ sData (snd (readIo s n e)) = skipn n (sData s) /\ (sEof (snd (readIo s n e)) = true -> sData (snd (readIo s n e)) = []) /\
  (sEof (snd (readIo s n e)) = false -> (n <= length (sData s))%nat /\ sEof s = false).
Proof.
  intros SE. unfold readIo. destruct (sEof s) eqn:E; cbn [orb fst snd].
  { rewrite SE by reflexivity. rewrite firstn_nil, skipn_nil. repeat split; auto; congruence. }
  destruct n as [|n]; cbn [Nat.eqb fst snd sData sEof].
  { repeat split; try congruence; try lia. }
  repeat split.
  - intros H. apply skipn_all2. destruct (length (sData s) <? S n)%nat eqn:A; [lia|]. destruct (length (sData s) =? S n)%nat eqn:B; [lia|discriminate].
  - destruct (length (sData s) <? S n)%nat eqn:A; [discriminate|lia].
Qed.
Lemma firstn_more (d : list Z) : forall a b, firstn (a + b) d = firstn a d ++ firstn b (skipn a d).
Proof. induction d as [|x d IH]; intros [|a] b; cbn; rewrite ?firstn_nil; try reflexivity. now rewrite IH. Qed.
Lemma skipn_more (d : list Z) : forall a b, skipn (a + b) d = skipn b (skipn a d).
Proof. induction d as [|x d IH]; intros [|a] b; cbn; rewrite ?skipn_nil; try reflexivity. apply IH. Qed.

(** One read of the request in front *)
Definition front (q : req) (s : stream) (n : nat) (e1 e2 : bool) : list Z * (req * stream) :=
  let n1 := match qRanges q with
    | a :: _ :: _ => let remains := wrap (rLim a - qRead q) in if remains <? Z.of_nat n then Z.to_nat remains else n
    | _ => n
    end in
  let (got, s1) := readIo s n1 e1 in
  (got, match qRanges q with
    | [] => (q, s1)
    | a :: rest =>
        let done := wrap (qRead q + Z.of_nat (length got)) in
        match rest with
        | b :: _ =>
            if wrap (rLim a - done) =? 0
            then (mkReq (qFile q) (qOff q) (qLim q) (qVer q) rest 0, snd (readIo s1 (Z.to_nat (wrap (rOff b - wrap (rOff a + rLim a)))) e2))
            else (mkReq (qFile q) (qOff q) (qLim q) (qVer q) (a :: rest) done, s1)
        | [] => (mkReq (qFile q) (qOff q) (qLim q) (qVer q) [a] done, s1)
        end
    end).
Lemma readMulti_front qm m n e1 e2 q qs s ss : mEof m = false -> mReqs m = q :: qs -> mQueue m = s :: ss ->
  readMulti content qm m n e1 e2 = let '(got, (q2, s2)) := front q s n e1 e2 in
    if sEof s2 then let* m2 := fill content qm false (mkMulti qs ss (mEof m)) in Ok (got, m2) else Ok (got, mkMulti (q2 :: qs) (s2 :: ss) (mEof m)).
Proof.
  intros E R Q. unfold readMulti, front. rewrite E, R, Q. destruct (readIo s _ e1) as [got s1]. reflexivity.
Qed.
Lemma front_spec q s n e1 e2 got q2 s2 : okReq q -> sEof s = false -> front q s n e1 e2 = (got, (q2, s2)) ->
  leftP (q, sData s) = got ++ leftP (q2, sData s2) /\ okReq q2 /\ (sEof s2 = true -> sData s2 = []) /\ qFile q2 = qFile q /\ qVer q2 = qVer q /\
  ((0 < n)%nat -> sEof s2 = false -> (cost (q2, sData s2) < cost (q, sData s))%nat).
Proof.
  intros (C & D & M) E. unfold front.
  assert (SE : sEof s = true -> sData s = []) by congruence.
  destruct (qRanges q) as [|a [|b t]] eqn:R.
  - pose proof (readIo_spec s n e1 SE) as (G & DD & EE & LL). destruct (readIo s n e1) as [g s1]. cbn [fst snd] in *. intros [= <- <- <-].
    unfold leftP, okReq, cost. cbn [fst snd]. rewrite R. cbn [left]. subst g. rewrite DD at 1. rewrite firstn_skipn. repeat split; auto.
    intros N EF. destruct (LL EF). rewrite DD, skipn_length. lia.
  - pose proof (readIo_spec s n e1 SE) as (G & DD & EE & LL). destruct (readIo s n e1) as [g s1]. cbn [fst snd] in *. intros [= <- <- <-].
    unfold leftP, okReq, cost. cbn [fst snd qRanges qRead qFile qVer]. rewrite R. cbn [left]. subst g. rewrite DD at 1. rewrite firstn_skipn. repeat split; auto; try apply C.
    + unfold wrap. apply Z.mod_pos_bound. lia.
    + intros N EF. destruct (LL EF). rewrite DD, skipn_length. cbn [length]. lia.
  - cbn [chain] in C. destruct C as (Ca & Cl & Ce & Cb & Cb1 & Cb2 & Cb3 & Ct). fold (chain (b :: t)) in *.
    rewrite (wrap_id (rLim a - qRead q)) by lia. set (n1 := if rLim a - qRead q <? Z.of_nat n then Z.to_nat (rLim a - qRead q) else n).
    pose proof (readIo_spec s n1 e1 SE) as (G & DD & EE & LL). destruct (readIo s n1 e1) as [g s1]. cbn [fst snd] in *.
    assert (N1 : (n1 <= n)%nat /\ Z.of_nat n1 <= rLim a - qRead q) by (subst n1; destruct (_ <? _) eqn:X; lia).
    assert (LG : (length g <= n1)%nat) by (rewrite G, firstn_length; lia).
    rewrite (wrap_id (qRead q + Z.of_nat (length g))) by lia. rewrite (wrap_id (rLim a - _)) by lia.
    assert (F1 : firstn (Z.to_nat (rLim a - qRead q)) (sData s) = g ++ firstn (Z.to_nat (rLim a - qRead q) - n1) (sData s1)).
    { replace (Z.to_nat (rLim a - qRead q)) with (n1 + (Z.to_nat (rLim a - qRead q) - n1))%nat at 1 by lia. now rewrite firstn_more, G, DD. }
    assert (F2 : forall k, skipn (Z.to_nat (rLim a - qRead q) + k) (sData s) = skipn (Z.to_nat (rLim a - qRead q) - n1 + k) (sData s1)).
    { intros k. rewrite DD, <- skipn_more. f_equal. lia. }
    destruct (rLim a - (qRead q + Z.of_nat (length g)) =? 0) eqn:X.
    + rewrite (wrap_id (rOff a + rLim a)) by lia. rewrite (wrap_id (rOff b - _)) by (unfold B64 in *; lia).
      pose proof (readIo_spec s1 (Z.to_nat (rOff b - (rOff a + rLim a))) e2 EE) as (G2 & D2 & E2 & L2). set (r2 := readIo s1 _ e2) in *. clearbody r2. intros [= <- <- <-].
      assert (NN : Z.to_nat (rLim a - qRead q) = n1) by lia.
      unfold leftP, okReq, cost. cbn [fst snd qRanges qRead qFile qVer]. rewrite R. rewrite (left_eq a). rewrite F1, F2, NN, Nat.sub_diag. cbn [firstn]. rewrite app_nil_r. cbn [Nat.add]. rewrite D2.
      repeat split; auto; try lia; try apply Ct. { destruct t; [trivial|lia]. } { rewrite <- D2. exact E2. }
      intros N EF. rewrite skipn_length, DD, skipn_length. cbn [length]. lia.
    + intros [= <- <- <-]. unfold leftP, okReq, cost. cbn [fst snd qRanges qRead qFile qVer]. rewrite R. rewrite ?left_eq. rewrite F1, F2, <- app_assoc.
      (* either all that was asked for came, or the file ended *)
      destruct (sEof s1) eqn:EF.
      * rewrite EE by reflexivity. rewrite !firstn_nil, !skipn_nil, !left_nil. cbn [app]. cbn [chain]. repeat split; auto; try lia; try congruence; try apply Ct.
      * destruct (LL eq_refl) as (LE & _). assert (length g = n1) by (rewrite G, firstn_length; lia).
        replace (Z.to_nat (rLim a - (qRead q + Z.of_nat (length g)))) with (Z.to_nat (rLim a - qRead q) - n1)%nat by lia.
        cbn [chain]. repeat split; auto; try lia; try apply Ct; try congruence. intros N _. rewrite DD, skipn_length. cbn [length]. assert (0 < n1)%nat by (subst n1; destruct (_ <? _) eqn:Y; lia). lia.
Qed.

(** One read *)
Lemma read_spec qm m n e1 e2 : (0 < qm)%nat -> okM m -> mEof m = false ->
  readMulti content qm m n e1 e2 <> UB /\ (forall e, readMulti content qm m n e1 e2 = Err e -> e = EFileMissing) /\
  (Forall present (mReqs m) -> exists r, readMulti content qm m n e1 e2 = Ok r /\ Forall present (mReqs (snd r))) /\
  forall got m2, readMulti content qm m n e1 e2 = Ok (got, m2) -> okM m2 /\ rem m = got ++ rem m2 /\
    ((0 < n)%nat -> (total (pairs (mReqs m2) (mQueue m2)) < total (pairs (mReqs m) (mQueue m)))%nat).
Proof.
  intros QM ((S & L) & OK & E1 & E2) EF.
  destruct (mReqs m) as [|q qs] eqn:R; [destruct E1 as [_ E1]; rewrite E1 in EF by reflexivity; discriminate|].
  destruct (mQueue m) as [|s ss] eqn:Q; [destruct E2 as [E2 _]; discriminate (E2 eq_refl)|].
  rewrite (readMulti_front qm m n e1 e2 q qs s ss EF R Q). inversion S as [|? ? S1 S2]; subst. inversion OK as [|? ? O1 O2]; subst.
  destruct (front q s n e1 e2) as [got [q2 s2]] eqn:F. destruct (front_spec _ _ _ _ _ _ _ _ O1 S1 F) as (FL & FO & FE & FF & FV & FC).
  unfold rem. rewrite R, Q. cbn [pairs map concat total fold_right]. destruct (sEof s2) eqn:SE.
  - set (m1 := mkMulti qs ss (mEof m)). assert (LV : live m1) by (split; [exact S2|cbn in *; lia]). assert (PL : leftP (q2, sData s2) = []) by (rewrite FE by reflexivity; apply left_nil).
    destruct (fill_err qm false m1) as (U & ER). repeat split.
    + destruct (fill content qm false m1); cbn [bind]; congruence.
    + intros e. destruct (fill content qm false m1) eqn:FI; cbn [bind]; try discriminate. intros [= <-]. now apply ER.
    + intros P. inversion P as [|? ? P1 P2]; subst. destruct (fill_ok qm false m1 P2) as (m2 & FI). destruct (fill_spec _ _ _ _ LV FI) as (_ & RR & _). rewrite FI. cbn [bind]. eexists. split; [reflexivity|]. cbn [snd]. rewrite RR. exact P2.
    + destruct (fill content qm false m1) as [m3| |] eqn:FI; cbn [bind] in H; try discriminate. injection H as <- <-. destruct (fill_spec _ _ _ _ LV FI) as (L3 & R3 & P3 & (Z1 & Z2) & _); auto. unfold live in L3. apply L3.
    + destruct (fill content qm false m1) as [m3| |] eqn:FI; cbn [bind] in H; try discriminate. injection H as <- <-. destruct (fill_spec _ _ _ _ LV FI) as (L3 & R3 & P3 & _). apply L3.
    + destruct (fill content qm false m1) as [m3| |] eqn:FI; cbn [bind] in H; try discriminate. injection H as <- <-. destruct (fill_spec _ _ _ _ LV FI) as (L3 & R3 & P3 & _). rewrite R3. exact O2.
    + destruct (fill content qm false m1) as [m3| |] eqn:FI; cbn [bind] in H; try discriminate. injection H as <- <-. destruct (fill_spec _ _ _ _ LV FI) as (L3 & R3 & P3 & ZZ & _). destruct (ZZ QM eq_refl EF) as (Z1 & Z2). rewrite R3. apply Z1.
    + destruct (fill content qm false m1) as [m3| |] eqn:FI; cbn [bind] in H; try discriminate. injection H as <- <-. destruct (fill_spec _ _ _ _ LV FI) as (L3 & R3 & P3 & ZZ & _). destruct (ZZ QM eq_refl EF) as (Z1 & Z2). rewrite R3. apply Z1.
    + destruct (fill content qm false m1) as [m3| |] eqn:FI; cbn [bind] in H; try discriminate. injection H as <- <-. destruct (fill_spec _ _ _ _ LV FI) as (L3 & R3 & P3 & ZZ & _). destruct (ZZ QM eq_refl EF) as (Z1 & Z2). rewrite R3. apply Z2.
    + destruct (fill content qm false m1) as [m3| |] eqn:FI; cbn [bind] in H; try discriminate. injection H as <- <-. destruct (fill_spec _ _ _ _ LV FI) as (L3 & R3 & P3 & ZZ & _). destruct (ZZ QM eq_refl EF) as (Z1 & Z2). rewrite R3. apply Z2.
    + destruct (fill content qm false m1) as [m3| |] eqn:FI; cbn [bind] in H; try discriminate. injection H as <- <-. destruct (fill_spec _ _ _ _ LV FI) as (L3 & R3 & P3 & _). rewrite P3, FL, PL, app_nil_r. reflexivity.
    + intros N. destruct (fill content qm false m1) as [m3| |] eqn:FI; cbn [bind] in H; try discriminate. injection H as <- <-. destruct (fill_spec _ _ _ _ LV FI) as (L3 & R3 & P3 & _). rewrite P3. subst m1. cbn [mReqs mQueue fst snd]. unfold total. assert (0 < cost (q, sData s))%nat by (unfold cost; lia). lia.
  - split; [discriminate|]. split; [discriminate|]. split.
    { intros P. inversion P as [|? ? P1 P2]; subst. eexists. split; [reflexivity|]. cbn [snd mReqs]. constructor; [|assumption]. unfold present in *. now rewrite FF, FV. }
    intros g m2 [= <- <-]. cbn [mReqs mQueue pairs map concat total fold_right]. split; [|split].
    + split; [split; [constructor; assumption|cbn in *; lia]|]. split; [constructor; assumption|]. cbn [mReqs mQueue mEof]. rewrite EF. repeat split; discriminate.
    + now rewrite FL, <- app_assoc.
    + intros N. specialize (FC N eq_refl). unfold total in *. lia.
Qed.

Lemma reads_spec qm sched : (0 < qm)%nat -> forall m, okM m ->
  reads content qm m sched <> UB /\ (forall e, reads content qm m sched = Err e -> e = EFileMissing) /\
  (Forall present (mReqs m) -> exists r, reads content qm m sched = Ok r) /\
  forall out eof, reads content qm m sched = Ok (out, eof) -> (exists rest, rem m = out ++ rest /\ (eof = true -> rest = [])) /\
    (Forall (fun x => (0 < fst (fst x))%nat) sched -> (total (pairs (mReqs m) (mQueue m)) <= length sched)%nat -> eof = true).
Proof.
  intros QM. induction sched as [|[[n e1] e2] sched IH]; intros m OK; cbn [reads]; destruct (mEof m) eqn:EF.
  1, 3: destruct OK as (_ & _ & E1 & _); apply E1 in EF; split; [discriminate|]; split; [discriminate|]; split; [eauto|]; intros out eof [= <- <-]; split; [exists []; unfold rem; rewrite EF; now split|reflexivity].
  - split; [discriminate|]; split; [discriminate|]; split; [eauto|]; intros out eof [= <- <-]; split; [exists (rem m); split; [reflexivity|discriminate]|]. intros _ T.
    destruct OK as (_ & _ & E1 & E2). destruct (mReqs m) as [|q qs]; [destruct E1 as [_ E1]; rewrite E1 in EF by reflexivity; discriminate|]. exfalso. revert T. destruct (mQueue m); cbn [pairs total fold_right length]; unfold cost at 1; lia.
  - destruct (read_spec qm m n e1 e2 QM OK EF) as (U & ER & P & ST). destruct (readMulti content qm m n e1 e2) as [[got m2]|e|] eqn:RM; cbn [bind]; [|split; [discriminate|]; split; [intros x [= <-]; now apply ER|]; split; [intros PP; destruct (P PP) as (r & X & _); discriminate|discriminate]|congruence].
    destruct (ST _ _ eq_refl) as (OK2 & RE & TT). destruct (IH m2 OK2) as (IU & IE & IP & IS). split; [|split; [|split]].
    + destruct (reads content qm m2 sched) as [[? ?]| |]; cbn [bind]; congruence.
    + intros e. destruct (reads content qm m2 sched) as [[? ?]| |] eqn:X; cbn [bind]; try discriminate. intros [= <-]. now apply IE.
    + intros PP. destruct (P PP) as (r & [= <-] & P2). destruct (IP P2) as ([o b] & X). rewrite X. cbn [bind]. eauto.
    + intros out eof. destruct (reads content qm m2 sched) as [[o b]| |] eqn:X; cbn [bind]; try discriminate. intros [= <- <-]. destruct (IS _ _ eq_refl) as ((rest & RR & RN) & LI). split.
      * exists rest. split; [|assumption]. now rewrite RE, RR, app_assoc.
      * intros F LE. inversion F as [|? ? F1 F2]; subst. cbn [fst] in F1. apply LI; [assumption|]. specialize (TT F1). cbn [length] in LE. lia.
Qed.
End Files.
