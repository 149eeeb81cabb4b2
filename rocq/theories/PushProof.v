From Verif Require Import Base Str ConvertModel NumModel WalExpireModel SpoolModel SpoolSpec SpoolProof PushModel PushSpec.
From Coq Require Import Permutation Sorted.
Open Scope Z_scope.

Lemma skipn_skipn {A} (a b : nat) (l : list A) : skipn a (skipn b l) = skipn (a + b) l.
Proof. revert l; induction b as [|b IH]; intros l; [now rewrite Nat.add_0_r|]. destruct l; [now rewrite !skipn_nil|]. rewrite Nat.add_succ_r. cbn [skipn]. apply IH. Qed.

(** * Names *)

Lemma forallb_range f lo hi l : (forall c, f c = (lo <=? c) && (c <=? hi)) -> forallb f l = true <-> Forall (fun c => lo <= c <= hi) l.
Proof. intros H. rewrite forallb_forall, Forall_forall. split; intros G c Hc; specialize (G c Hc); rewrite H in *; lia. Qed.
Lemma hexF l : forallb isHexF l = true <-> Forall (fun c => 48 <= c <= 70) l.
Proof. apply forallb_range. reflexivity. Qed.
Lemma hexSum l : forallb isHexSum l = true <-> Forall (fun c => 48 <= c <= 102) l.
Proof. apply forallb_range. reflexivity. Qed.

Lemma walIsSegment_spec f : walIsSegment f = true <-> isSegmentName f.
Proof.
  unfold walIsSegment, isSegmentName, seg24. rewrite !andb_true_iff, orb_true_iff, Nat.leb_le, hexF, !strEqb_eq. split.
  - intros ((L & F) & E). exists (firstn 24 f). split; [split; [rewrite firstn_length; lia|exact F]|]. rewrite <- (firstn_skipn 24 f) at 1 3. destruct E as [E|E]; rewrite E; [left; apply app_nil_r|right; reflexivity].
  - intros (s & (L & F) & E). destruct E as [->| ->].
    + rewrite firstn_all2 by lia. rewrite skipn_all2 by lia. repeat split; auto; lia.
    + rewrite app_length, firstn_app, skipn_app, L, Nat.sub_diag, firstn_O, app_nil_r. rewrite firstn_all2, skipn_all2 by lia. repeat split; auto. lia.
Qed.
Lemma isSegmentName_dec f : isSegmentName f \/ ~ isSegmentName f.
Proof. destruct (walIsSegment f) eqn:E; [left; now apply walIsSegment_spec|right]. intros H. apply walIsSegment_spec in H. congruence. Qed.

Lemma partial_no s : seg24 s -> walIsPartial s = false.
Proof.
  intros (L & F). unfold walIsPartial. destruct (strEndsWith s extPartial) eqn:E; [|reflexivity]. exfalso. apply endsWith_ex in E. rewrite E in F. apply Forall_app in F. destruct F as (_ & F).
  inversion F; subst. lia.
Qed.
Lemma partial_yes s : walIsPartial (s ++ extPartial) = true.
Proof. apply endsWith_app. Qed.

Lemma ext_in e : existsb (strEqb e) ([] :: compressExts) = true <-> isExt e.
Proof.
  rewrite existsb_exists. unfold isExt. split.
  - intros (x & Hx & E). apply strEqb_eq in E. now subst.
  - intros H. exists e. split; [exact H|apply strEqb_refl].
Qed.

Lemma sumPart_spec r : (exists t, r = 45 :: t /\ (40 <=? length t)%nat && forallb isHexSum (firstn 40 t) && existsb (strEqb (skipn 40 t)) ([] :: compressExts) = true) <->
  exists sum ext, r = 45 :: sum ++ ext /\ sum40 sum /\ isExt ext.
Proof.
  split.
  - intros (t & -> & H). rewrite !andb_true_iff, Nat.leb_le, hexSum, ext_in in H. destruct H as ((L & F) & X). exists (firstn 40 t), (skipn 40 t). rewrite firstn_skipn.
    split; [reflexivity|]. split; [split; [rewrite firstn_length; lia|exact F]|exact X].
  - intros (sum & ext & -> & (L & F) & X). exists (sum ++ ext). split; [reflexivity|]. rewrite app_length, firstn_app, skipn_app, L, Nat.sub_diag, firstn_O, app_nil_r.
    rewrite firstn_all2, skipn_all2 by lia. cbn [app]. rewrite !andb_true_iff, Nat.leb_le, hexSum, ext_in. repeat split; auto. lia.
Qed.
Lemma match45 r (P : str -> bool) : match r with 45 :: t => P t | _ => false end = true <-> exists t, r = 45 :: t /\ P t = true.
Proof.
  split.
  - destruct r as [|c t]; [discriminate|]. destruct (Z.eq_dec c 45) as [->|N]; [eauto|]. intros H. exfalso. revert H.
    destruct c as [|p|p]; try discriminate. do 6 (destruct p as [p|p|]; try discriminate). now elim N.
  - intros (t & -> & H). exact H.
Qed.

Lemma segmentMatch_spec seg name : isSegmentName seg -> segmentMatch seg name = true <-> exists sum, sum40 sum /\ segmentFile seg sum name.
Proof.
  intros (s & Hs & Hseg). unfold segmentMatch. destruct Hseg as [->| ->].
  - rewrite (partial_no s Hs). cbn [andb]. rewrite andb_true_r, andb_true_iff, strEqb_eq, match45, sumPart_spec. destruct Hs as (L & F). rewrite (firstn_all2 s) by lia. split.
    + intros (E & sum & ext & X & S & Y). exists sum. split; [exact S|]. exists s, ext. split; [split; assumption|]. split; [exact Y|]. left. split; [reflexivity|].
      rewrite <- X, <- E. symmetry. apply firstn_skipn.
    + intros (sum & S & s' & ext & Hs' & Y & [(<- & ->)|(E & _)]).
      * rewrite firstn_app, skipn_app, L, Nat.sub_diag, firstn_O, app_nil_r. rewrite firstn_all2, skipn_all2 by lia. split; [reflexivity|]. exists sum, ext. auto.
      * exfalso. apply (f_equal (@length Z)) in E. rewrite app_length in E. destruct Hs'. cbn in E. lia.
  - change [46;112;97;114;116;105;97;108] with extPartial. rewrite partial_yes. rewrite !andb_true_iff, !strEqb_eq, match45, sumPart_spec, Nat.leb_le. pose proof Hs as (L & F).
    rewrite (firstn_app 24 s), L, Nat.sub_diag, firstn_O, app_nil_r, (firstn_all2 s) by lia. change (skipn 1 extPartial) with [112;97;114;116;105;97;108]. split.
    + intros ((E & (L32 & P)) & sum & ext & X & S & Y). exists sum. split; [exact S|]. exists s, ext. split; [exact Hs|]. split; [exact Y|]. right. split; [reflexivity|].
      destruct (skipn 24 name) as [|c t] eqn:Et; [apply (f_equal (@length Z)) in Et; rewrite skipn_length in Et; cbn in Et; lia|]. exists c.
      assert (T : t = skipn 25 name) by (change 25%nat with (1 + 24)%nat; rewrite <- skipn_skipn, Et; reflexivity).
      rewrite <- (firstn_skipn 24 name), E, Et. f_equal. f_equal. rewrite T, <- (firstn_skipn 7 (skipn 25 name)), P, skipn_skipn. cbn [Nat.add]. now rewrite X.
    + intros (sum & S & s' & ext & Hs' & Y & [(E & _)|(E & c & ->)]);
        [exfalso; apply (f_equal (@length Z)) in E; rewrite app_length in E; destruct Hs'; cbn in E; lia|].
      apply app_inv_tail in E. subst s'. rewrite firstn_app, !skipn_app, L, Nat.sub_diag, firstn_O, app_nil_r. rewrite firstn_all2, !skipn_all2 by lia. cbn [app].
        split; [split; [reflexivity|]|].
        * split; [rewrite app_length, L; cbn [length]; lia|reflexivity].
        * rewrite (skipn_all2 s) by lia. exists sum, ext. auto.
Qed.

Lemma segmentFile_sum seg sum name : sum40 sum -> segmentFile seg sum name -> firstn 40 (skipn (length seg + 1) name) = sum.
Proof.
  intros (L40 & _) (s & ext & (L & _) & _ & [(-> & ->)|(-> & c & ->)]).
  - rewrite skipn_app, skipn_all2 by lia. replace (length s + 1 - length s)%nat with 1%nat by lia. cbn [app skipn]. rewrite firstn_app, L40, Nat.sub_diag, firstn_O, app_nil_r. now apply firstn_all2; lia.
  - rewrite app_length, skipn_app, skipn_all2 by (cbn; lia). cbn [length]. replace (length s + 8 + 1 - length s)%nat with 9%nat by lia. cbn [app skipn]. rewrite firstn_app, L40, Nat.sub_diag, firstn_O, app_nil_r. now apply firstn_all2; lia.
Qed.

(** * Finding the segment *)

Definition names (w : repos) (r : repoData) : list str := map fst (w (rdIdx r) (rdArchiveId r)).
Definition matches (w : repos) (r : repoData) (seg : str) : list str := strLstSortAsc (filter (segmentMatch seg) (names w r)).

Lemma holds_name w r n : In n (names w r) <-> exists c, holds w r n c.
Proof. unfold names, holds. rewrite in_map_iff. split; [intros ((m & c) & <- & H); eauto|]. intros (c & H). exists (n, c). auto. Qed.
Lemma matches_in w r seg n : In n (matches w r seg) <-> In n (names w r) /\ segmentMatch seg n = true.
Proof. unfold matches. now rewrite strLstSortAsc_in, filter_In. Qed.

Lemma findOne_ok e w r seg o : walSegmentFindOne e w r seg = Ok o -> matches w r seg = match o with Some f => [f] | None => [] end.
Proof.
  unfold walSegmentFindOne. destruct (enList e (rdIdx r)); [discriminate|]. fold (names w r). fold (matches w r seg). destruct (matches w r seg) as [|f [|g l]]; intros [= <-]; reflexivity.
Qed.
Lemma findOne_no_ub e w r seg : walSegmentFindOne e w r seg <> UB.
Proof. unfold walSegmentFindOne. destruct (enList e (rdIdx r)); [discriminate|]. destruct (strLstSortAsc _) as [|f [|g l]]; discriminate. Qed.

Lemma onlyFile_matches w r f sum name : isSegmentName f -> sum40 sum -> segmentFile f sum name -> onlyFile w r f name -> matches w r f = [name].
Proof.
  intros Hf Hs Hn (Nd & (c & Hc) & U).
  assert (Hi : forall n, In n (matches w r f) <-> n = name).
  { intros n. rewrite matches_in, holds_name, (segmentMatch_spec f n Hf). split.
    - intros ((c' & Hc') & s' & Hs' & Hn'). eapply U; eauto.
    - intros ->. split; [eauto|]. eauto. }
  assert (Nm : NoDup (matches w r f)) by (apply NoDup_sort, NoDup_filter', Nd).
  destruct (matches w r f) as [|a [|b l]].
  - exfalso. apply (proj2 (Hi name) eq_refl).
  - f_equal. apply Hi. now left.
  - exfalso. inversion Nm; subst. apply H1. rewrite (proj1 (Hi a)) by now left. left. apply Hi. right. now left.
Qed.

Section Push.
  Variables (sha1hex : data -> str) (encrypt : nat -> data -> data).
  Hypothesis Hsha : forall d, sum40 (sha1hex d).
  Notation push := (archivePushFile sha1hex encrypt).

  (** Decision for one repository. *)
  Definition needsCopy (e : env) (w : repos) (seg : str) (r : repoData) : bool :=
    match walSegmentFindOne e w r seg with Ok None => true | _ => false end.

  Lemma findLoop_ok e w seg sum mc l : forall any errs warns cp any' errs' warns',
    pushFindLoop e w seg sum mc l any errs warns = Ok (cp, any', errs', warns') ->
    cp = map (needsCopy e w seg) l /\ any' = any || existsb (needsCopy e w seg) l /\ (exists t, errs' = errs ++ t) /\
    (forall r f, In r l -> walSegmentFindOne e w r seg = Ok (Some f) -> firstn 40 (skipn (length seg + 1) f) = sum) /\
    (errs' = errs -> forall r, In r l -> exists o, walSegmentFindOne e w r seg = Ok o).
  Proof.
    induction l as [|r l IH]; cbn [pushFindLoop map existsb]; intros any errs warns cp any' errs' warns' H.
    - injection H as <- <- <- <-. split; [reflexivity|]. split; [now rewrite orb_false_r|]. split; [exists []; now rewrite app_nil_r|]. split; [intros ? ? []|]. intros _ ? [].
    - unfold needsCopy at 1 3. destruct (walSegmentFindOne e w r seg) as [[f|]|k|] eqn:E; [| | |discriminate].
      + destruct (strEqb_spec sum (firstn 40 (skipn (length seg + 1) f))) as [Es|]; [|discriminate].
        destruct (pushFindLoop _ _ _ _ _ l _ _ _) as [[[[cp1 a1] er1] wn1]| |] eqn:X; try discriminate. cbn in H. injection H as <- <- <- <-.
        destruct (IH _ _ _ _ _ _ _ X) as (C & A & T & S & O). split; [now rewrite C|]. split; [rewrite A; now destruct any|]. split; [exact T|]. split.
        * intros r' f' [<-|Hi] Ef; [|now apply (S r')]. congruence.
        * intros Er r' [<-|Hi]; [eauto|]. now apply O.
      + destruct (pushFindLoop _ _ _ _ _ l _ _ _) as [[[[cp1 a1] er1] wn1]| |] eqn:X; try discriminate. cbn in H. injection H as <- <- <- <-.
        destruct (IH _ _ _ _ _ _ _ X) as (C & A & T & S & O). split; [now rewrite C|]. split; [rewrite A; now destruct any|]. split; [exact T|]. split.
        * intros r' f' [<-|Hi] Ef; [congruence|now apply (S r')].
        * intros Er r' [<-|Hi]; [eauto|]. now apply O.
      + destruct (pushFindLoop _ _ _ _ _ l _ _ _) as [[[[cp1 a1] er1] wn1]| |] eqn:X; try discriminate. cbn in H. injection H as <- <- <- <-.
        destruct (IH _ _ _ _ _ _ _ X) as (C & A & (t & T) & S & O). split; [now rewrite C|]. split; [rewrite A; now destruct any|]. split; [exists ((rdIdx r, k) :: t); now rewrite T, <- app_assoc|]. split.
        * intros r' f' [<-|Hi] Ef; [congruence|now apply (S r')].
        * intros Er. exfalso. rewrite T in Er. rewrite <- app_assoc in Er. rewrite <- (app_nil_r errs) in Er at 2. apply app_inv_head in Er. discriminate.
  Qed.

  Lemma findLoop_different e w seg sum mc l r f : In r l -> walSegmentFindOne e w r seg = Ok (Some f) -> firstn 40 (skipn (length seg + 1) f) <> sum ->
    forall any errs warns, pushFindLoop e w seg sum mc l any errs warns = Err EArchiveDuplicate.
  Proof.
    induction l as [|r' l IH]; intros Hi Ef Hd any errs warns; [destruct Hi|]. cbn [pushFindLoop]. destruct Hi as [->|Hi].
    - rewrite Ef. destruct (strEqb_spec sum (firstn 40 (skipn (length seg + 1) f))); [congruence|reflexivity].
    - destruct (walSegmentFindOne e w r' seg) as [[g|]|k|] eqn:E.
      + destruct (strEqb _ _); [|reflexivity]. now rewrite IH.
      + now rewrite IH.
      + now rewrite IH.
      + exfalso. revert E. apply findOne_no_ub.
  Qed.

  (** * Writing *)

  Lemma ioLoop_spec io l : forall cp errs cp' errs', length cp = length l -> ioLoop io l cp errs = (cp', errs') ->
    length cp' = length l /\ (exists t, errs' = errs ++ t) /\ (forall k r, nth_error l k = Some r -> nth k cp' false = true -> nth k cp false = true) /\
    (errs' = errs -> cp' = cp).
  Proof.
    induction l as [|r l IH]; cbn [ioLoop]; intros cp errs cp' errs' L H.
    - destruct cp; [|discriminate]. injection H as <- <-. split; [reflexivity|]. split; [exists []; now rewrite app_nil_r|]. split; [intros [] ?; discriminate|auto].
    - destruct cp as [|c cps]; [discriminate|]. cbn in L.
      destruct (if c then match io (rdIdx r) with Some k => (false, errs ++ [(rdIdx r, k)]) | None => (true, errs) end else (c, errs)) as [c' e1] eqn:E1.
      destruct (ioLoop io l cps e1) as [cps' e2] eqn:E2. injection H as <- <-. destruct (IH cps e1 cps' e2 ltac:(lia) E2) as (L' & (t & T) & N & Q).
      assert (K : (exists t1, e1 = errs ++ t1) /\ (c' = true -> c = true) /\ (e1 = errs -> c' = c)).
      { destruct c; [|injection E1 as <- <-; split; [exists []; now rewrite app_nil_r|auto]]. destruct (io (rdIdx r)) as [k|]; injection E1 as <- <-.
        - split; [eauto|]. split; [discriminate|]. intros F. rewrite <- (app_nil_r errs) in F at 2. apply app_inv_head in F. discriminate.
        - split; [exists []; now rewrite app_nil_r|auto]. }
      destruct K as ((t1 & T1) & K1 & K2). split; [cbn; lia|]. split; [exists (t1 ++ t); rewrite T, T1; now rewrite <- app_assoc|]. split.
      + intros [|k] r' Hr Hn; cbn in *; [auto|eapply N; eauto].
      + intros F. rewrite T, T1, <- app_assoc in F. rewrite <- (app_nil_r errs) in F at 2. apply app_inv_head in F. apply app_eq_nil in F. destruct F as (-> & ->).
        rewrite app_nil_r in T1, T. rewrite K2, Q by assumption. reflexivity.
  Qed.

  Lemma writeLoop_spec e l chunks : forall k cp errs cp' errs', length cp = length l -> writeLoop e l k chunks cp errs = (cp', errs') ->
    length cp' = length l /\ (exists t, errs' = errs ++ t) /\ (forall k r, nth_error l k = Some r -> nth k cp' false = true -> nth k cp false = true) /\
    (errs' = errs -> cp' = cp).
  Proof.
    induction chunks as [|ch chunks IH]; cbn [writeLoop]; intros k cp errs cp' errs' L H.
    - injection H as <- <-. split; [exact L|]. split; [exists []; now rewrite app_nil_r|]. auto.
    - destruct (ioLoop (fun r => enWrite e r k) l cp errs) as [cp1 e1] eqn:E1. destruct (ioLoop_spec _ _ _ _ _ _ L E1) as (L1 & (t1 & T1) & N1 & Q1).
      destruct (IH _ _ _ _ _ L1 H) as (L2 & (t2 & T2) & N2 & Q2). split; [exact L2|]. split; [exists (t1 ++ t2); rewrite T2, T1; now rewrite <- app_assoc|]. split; [eauto|].
      intros F. rewrite T2, T1, <- app_assoc in F. rewrite <- (app_nil_r errs) in F at 2. apply app_inv_head in F. apply app_eq_nil in F. destruct F as (-> & ->).
      rewrite app_nil_r in T1, T2. rewrite Q2, Q1 by congruence. reflexivity.
  Qed.

  Lemma putFile_in l n c f : In f (putFile l n c) <-> f = (n, c) \/ (In f l /\ fst f <> n).
  Proof. unfold putFile. cbn [In]. rewrite filter_In. destruct (strEqb_spec (fst f) n); cbn; intuition (congruence || auto). Qed.

  Lemma setFiles_get w r a l r' a' : setFiles w r a l r' a' = if Nat.eqb r' r && strEqb a' a then l else w r' a'.
  Proof. reflexivity. Qed.

  Definition sameRepo (r : repoData) (i : nat) (a : str) : Prop := i = rdIdx r /\ a = rdArchiveId r.

  (** Contents after closing: files other than [dest] in repositories that took part stay; all new files are complete. *)
  Lemma closeLoop_spec e l dest content : forall cp w errs w' errs', length cp = length l -> closeLoop encrypt e l cp dest content w errs = (w', errs') ->
    (exists t, errs' = errs ++ t) /\
    (forall i a f, In f (w' i a) -> In f (w i a) \/ (f = (dest, encrypt i content) /\ exists k r, nth_error l k = Some r /\ nth k cp false = true /\ sameRepo r i a)) /\
    (forall i a f, In f (w i a) -> In f (w' i a) \/ (fst f = dest /\ In (dest, encrypt i content) (w' i a) /\ exists k r, nth_error l k = Some r /\ nth k cp false = true /\ sameRepo r i a)) /\
    (forall i a, (forall k r, nth_error l k = Some r -> nth k cp false = true -> ~ sameRepo r i a) -> w' i a = w i a) /\
    (errs' = errs -> forall k r, nth_error l k = Some r -> nth k cp false = true -> In (dest, encrypt (rdIdx r) content) (w' (rdIdx r) (rdArchiveId r))).
  Proof.
    induction l as [|r l IH]; cbn [closeLoop]; intros cp w errs w' errs' L H.
    - injection H as <- <-. split; [exists []; now rewrite app_nil_r|]. split; [auto|]. split; [auto|]. split; [auto|]. intros _ [] ? Hx; discriminate.
    - destruct cp as [|c cps]; [discriminate|]. cbn in L. destruct c.
      2:{ destruct (IH cps w errs w' errs' ltac:(lia) H) as (T & A & B & D & O). split; [exact T|]. split; [|split; [|split]].
          - intros i a f Hf. destruct (A i a f Hf) as [K|(K & k & r' & K1 & K2 & K3)]; [now left|right]. split; [exact K|]. exists (S k), r'. auto.
          - intros i a f Hf. destruct (B i a f Hf) as [K|(K & K' & k & r' & K1 & K2 & K3)]; [now left|right]. split; [exact K|]. split; [exact K'|]. exists (S k), r'. auto.
          - intros i a Hn. apply D. intros k r' Hr Hc. apply (Hn (S k) r' Hr Hc).
          - intros F [|k] r' Hr Hc; cbn in *; [discriminate|]. eapply O; eauto. }
      set (w1 := setFiles w (rdIdx r) (rdArchiveId r) (putFile (w (rdIdx r) (rdArchiveId r)) dest (encrypt (rdIdx r) content))) in *.
      assert (W1 : forall i a f, In f (w1 i a) <-> (sameRepo r i a /\ (f = (dest, encrypt i content) \/ (In f (w i a) /\ fst f <> dest))) \/ (~ sameRepo r i a /\ In f (w i a))).
      { intros i a f. unfold w1. rewrite setFiles_get. unfold sameRepo. destruct (Nat.eqb_spec i (rdIdx r)) as [->|Ni]; cbn [andb]; [|tauto].
        destruct (strEqb_spec a (rdArchiveId r)) as [->|Na]; [|tauto]. rewrite putFile_in. tauto. }
      assert (Stay : forall i a f, f = (dest, encrypt i content) -> In f (w1 i a) -> forall w2 e2, closeLoop encrypt e l cps dest content w1 e2 = (w2, errs') -> w2 = w' -> In f (w' i a)).
      { intros i a f -> Hf w2 e2 E2 ->. destruct (IH cps w1 e2 w' errs' ltac:(lia) E2) as (_ & _ & B & _ & _). destruct (B i a _ Hf) as [K|(_ & K & _)]; exact K. }
      assert (Case1 : forall e2 t2, e2 = errs ++ t2 -> closeLoop encrypt e l cps dest content w1 e2 = (w', errs') ->
        (exists t, errs' = errs ++ t) /\
        (forall i a f, In f (w' i a) -> In f (w i a) \/ (f = (dest, encrypt i content) /\ exists k r0, nth_error (r :: l) k = Some r0 /\ nth k (true :: cps) false = true /\ sameRepo r0 i a)) /\
        (forall i a f, In f (w i a) -> In f (w' i a) \/ (fst f = dest /\ In (dest, encrypt i content) (w' i a) /\ exists k r0, nth_error (r :: l) k = Some r0 /\ nth k (true :: cps) false = true /\ sameRepo r0 i a)) /\
        (forall i a, (forall k r0, nth_error (r :: l) k = Some r0 -> nth k (true :: cps) false = true -> ~ sameRepo r0 i a) -> w' i a = w i a) /\
        (errs' = errs -> forall k r0, nth_error (r :: l) k = Some r0 -> nth k (true :: cps) false = true -> In (dest, encrypt (rdIdx r0) content) (w' (rdIdx r0) (rdArchiveId r0)))).
      { intros e2 t2 -> E2. destruct (IH cps w1 _ w' errs' ltac:(lia) E2) as ((t & T) & A & B & D & O). split; [exists (t2 ++ t); rewrite T; now rewrite <- app_assoc|]. split; [|split; [|split]].
        - intros i a f Hf. destruct (A i a f Hf) as [K|(K & k & r' & K1 & K2 & K3)].
          + apply W1 in K. destruct K as [(Sr & [-> | (K & _)])|(_ & K)]; [right|now left|now left]. split; [reflexivity|]. exists 0%nat, r. auto.
          + right. split; [exact K|]. exists (S k), r'. auto.
        - intros i a f Hf. assert (Dec : sameRepo r i a \/ ~ sameRepo r i a).
          { unfold sameRepo. destruct (Nat.eq_dec i (rdIdx r)) as [->|]; [|right; tauto]. destruct (str_dec a (rdArchiveId r)) as [->|]; [left; auto|right; tauto]. }
          destruct (str_dec (fst f) dest) as [Ef|Nf].
          + destruct Dec as [Sr|Nr].
            * right. split; [exact Ef|]. split; [|exists 0%nat, r; auto]. eapply Stay; [reflexivity| |exact E2|reflexivity]. apply W1. left. auto.
            * assert (Hf1 : In f (w1 i a)) by (apply W1; right; auto). destruct (B i a f Hf1) as [K|(K & K' & k & r' & K1 & K2 & K3)]; [now left|right]. split; [exact K|]. split; [exact K'|]. exists (S k), r'. auto.
          + assert (Hf1 : In f (w1 i a)) by (apply W1; destruct Dec; [left|right]; auto). destruct (B i a f Hf1) as [K|(K & K' & k & r' & K1 & K2 & K3)]; [now left|contradiction].
        - intros i a Hn. rewrite D by (intros k r' Hr Hc; apply (Hn (S k) r' Hr Hc)). unfold w1. rewrite setFiles_get. pose proof (Hn 0%nat r eq_refl eq_refl) as Nr. unfold sameRepo in Nr.
          destruct (Nat.eqb_spec i (rdIdx r)) as [->|]; [|reflexivity]. destruct (strEqb_spec a (rdArchiveId r)) as [->|]; [tauto|reflexivity].
        - intros F [|k] r' Hr Hc; cbn in Hr, Hc.
          + injection Hr as <-. eapply Stay; [reflexivity| |exact E2|reflexivity]. apply W1. left. split; [split; reflexivity|]. now left.
          + rewrite T, <- app_assoc in F. rewrite <- (app_nil_r errs) in F at 2. apply app_inv_head in F. apply app_eq_nil in F. destruct F as (-> & ->). rewrite !app_nil_r in *. eapply O; eauto. }
      destruct (enClose e (rdIdx r)) as [|k0|k0].
      + apply (Case1 errs []); [now rewrite app_nil_r|exact H].
      + destruct (IH cps w _ w' errs' ltac:(lia) H) as ((t & T) & A & B & D & O). split; [exists ([(rdIdx r, k0)] ++ t); rewrite T; now rewrite <- app_assoc|]. split; [|split; [|split]].
        * intros i a f Hf. destruct (A i a f Hf) as [K|(K & k & r' & K1 & K2 & K3)]; [now left|right]. split; [exact K|]. exists (S k), r'. auto.
        * intros i a f Hf. destruct (B i a f Hf) as [K|(K & K' & k & r' & K1 & K2 & K3)]; [now left|right]. split; [exact K|]. split; [exact K'|]. exists (S k), r'. auto.
        * intros i a Hn. apply D. intros k r' Hr Hc. apply (Hn (S k) r' Hr Hc).
        * intros F. exfalso. rewrite T, <- app_assoc in F. rewrite <- (app_nil_r errs) in F at 2. apply app_inv_head in F. discriminate.
      + apply (Case1 _ [(rdIdx r, k0)] eq_refl H).
  Qed.
End Push.
