(** What the block incremental filter stores. *)
From Verif Require Import Base Str BlockMapModel BlockIncrModel BlockIncrSpec BlockIncrProof BlockCheckProof.
Open Scope Z_scope.

(** The blocks of the file, with the prior item for those that are taken from the prior map. *)
Definition gent := (list Z * option item)%type.
Fixpoint fill (g : list gent) (nw : list item) : list item :=
  match g with
  | [] => []
  | (_, Some x) :: r => x :: fill r nw
  | (_, None) :: r => match nw with y :: nw' => y :: fill r nw' | [] => [] end
  end.
Fixpoint npos (k : nat) (g : list gent) : list nat :=
  match g with [] => [] | (_, Some _) :: r => npos (S k) r | (_, None) :: r => k :: npos (S k) r end.
Definition newBlocks (g : list gent) : list (list Z) := concat (map (fun e => match snd e with None => [fst e] | Some _ => [] end) g).

Lemma npos_len g : forall k, length (npos k g) = length (newBlocks g).
Proof. induction g as [|(b, [x|]) g IH]; intros k; cbn; [reflexivity|apply IH|]. f_equal. apply IH. Qed.
Lemma npos_app g g' : forall k, npos k (g ++ g') = npos k g ++ npos (k + length g) g'.
Proof. induction g as [|(b, [x|]) g IH]; intros k; cbn; [now rewrite Nat.add_0_r|now rewrite IH, <- Nat.add_succ_comm|]. now rewrite IH, <- Nat.add_succ_comm. Qed.
Lemma npos_ge g : forall k i, In i (npos k g) -> (k <= i)%nat.
Proof. induction g as [|(b, [x|]) g IH]; intros k i H; cbn in H; [destruct H|apply IH in H; lia|]. destruct H as [<-|H]; [lia|apply IH in H; lia]. Qed.
Lemma npos_nodup g : forall k, NoDup (npos k g).
Proof. induction g as [|(b, [x|]) g IH]; intros k; cbn; [constructor|apply IH|]. constructor; [|apply IH]. intros H. apply npos_ge in H. lia. Qed.
Lemma newBlocks_app g g' : newBlocks (g ++ g') = newBlocks g ++ newBlocks g'.
Proof. unfold newBlocks. now rewrite map_app, concat_app. Qed.
Lemma fill_app g g' : forall n n', length n = length (newBlocks g) -> fill (g ++ g') (n ++ n') = fill g n ++ fill g' n'.
Proof.
  induction g as [|(b, [x|]) g IH]; intros n n' L.
  - destruct n; [reflexivity|discriminate].
  - cbn. f_equal. now apply IH.
  - destruct n as [|y n]; [discriminate|]. cbn. f_equal. apply IH. apply eq_add_S. exact L.
Qed.
Lemma fill_len g : forall n, length n = length (newBlocks g) -> length (fill g n) = length g.
Proof. induction g as [|(b, [x|]) g IH]; intros n L; [reflexivity|cbn; f_equal; now apply IH|]. destruct n as [|y n]; [discriminate|]. cbn. f_equal. apply IH. apply eq_add_S. exact L. Qed.

Definition updSize (size sbsize : Z) (x : item) : item := mkItem (iRef x) sbsize (iBundle x) (iOff x) size (iBlock x) (iSum x).
Lemma setSizes_fill size sbsize L : forall g k nw, length nw = length (newBlocks g) -> (forall i, In i L -> (k <= i)%nat -> In i (npos k g)) ->
  map (fun p : nat * item => let (i, x) := p in if existsb (Nat.eqb i) L then updSize size sbsize x else x) (combine (seq k (length (fill g nw))) (fill g nw)) =
  fill g (map (fun p : nat * item => let (i, x) := p in if existsb (Nat.eqb i) L then updSize size sbsize x else x) (combine (npos k g) nw)).
Proof.
  induction g as [|(b, [x|]) g IH]; intros k nw Ln HL; [reflexivity| |].
  - cbn [fill length seq combine map npos]. f_equal.
    + destruct (existsb (Nat.eqb k) L) eqn:E; [|reflexivity]. apply existsb_exists in E. destruct E as (i & Hi & E). apply Nat.eqb_eq in E. subst i. specialize (HL k Hi (le_n k)). cbn in HL. apply npos_ge in HL. lia.
    + apply IH; [exact Ln|]. intros i Hi Hk. apply (HL i Hi). lia.
  - destruct nw as [|y nw]; [discriminate|]. cbn [fill length seq combine map npos]. f_equal. apply IH; [apply eq_add_S; exact Ln|]. intros i Hi Hk. specialize (HL i Hi ltac:(lia)). cbn in HL. destruct HL as [H|H]; [lia|exact H].
Qed.
Lemma setSizes_spec size sbsize g A B : length (A ++ B) = length (newBlocks g) ->
  setSizes (fill g (A ++ B)) (skipn (length A) (npos 0 g)) size sbsize = fill g (A ++ map (updSize size sbsize) B).
Proof.
  intros L. unfold setSizes. change (fun p : nat * item => let (i, x) := p in if existsb (Nat.eqb i) (skipn (length A) (npos 0 g)) then mkItem (iRef x) sbsize (iBundle x) (iOff x) size (iBlock x) (iSum x) else x) with (fun p : nat * item => let (i, x) := p in if existsb (Nat.eqb i) (skipn (length A) (npos 0 g)) then updSize size sbsize x else x).
  rewrite setSizes_fill; [|exact L|]. 2:{ intros i Hi _. rewrite <- (firstn_skipn (length A) (npos 0 g)). apply in_app_iff. now right. }
  f_equal. set (P := npos 0 g) in *. assert (LP : length P = length (A ++ B)) by (unfold P; rewrite npos_len; auto). assert (ND : NoDup P) by apply npos_nodup. clearbody P. rewrite app_length in LP.
  assert (E : combine P (A ++ B) = combine (firstn (length A) P) A ++ combine (skipn (length A) P) B).
  { clear ND L. revert P LP. induction A as [|a A IH]; intros P LP; [reflexivity|]. destruct P as [|p P]; [cbn in LP; lia|]. cbn. f_equal. apply IH. cbn in LP. lia. }
  rewrite E, map_app. f_equal.
  - assert (D : forall i, In i (firstn (length A) P) -> ~ In i (skipn (length A) P)). { intros i H1 H2. rewrite <- (firstn_skipn (length A) P) in ND. clear -H1 H2 ND. induction (firstn (length A) P) as [|p l IH]; [destruct H1|]. cbn in ND. inversion ND as [|? ? N1 N2]. destruct H1 as [-> |H1]; [apply N1, in_app_iff; now right|now apply IH]. }
    assert (LA : length (firstn (length A) P) = length A) by (rewrite firstn_length; lia). revert LA D. generalize (firstn (length A) P). generalize (skipn (length A) P). clear. intros S F. revert A. induction F as [|i F IH]; intros A LA D; destruct A as [|a A]; try discriminate; [reflexivity|]. cbn.
    destruct (existsb (Nat.eqb i) S) eqn:Ex; [apply existsb_exists in Ex; destruct Ex as (j & Hj & Ej); apply Nat.eqb_eq in Ej; subst j; destruct (D i (or_introl eq_refl) Hj)|]. f_equal. apply IH; [cbn in LA; congruence|]. intros j Hj. apply D. now right.
  - assert (LB : length (skipn (length A) P) = length B) by (rewrite skipn_length; lia). assert (I : forall i, In i (skipn (length A) P) -> existsb (Nat.eqb i) (skipn (length A) P) = true) by (intros i Hi; apply existsb_exists; exists i; split; [exact Hi|apply Nat.eqb_refl]).
    revert LB I. generalize (skipn (length A) P). intros T. assert (K : forall F (B : list item), length F = length B -> (forall i, In i F -> existsb (Nat.eqb i) T = true) ->
      map (fun p : nat * item => let (i, x) := p in if existsb (Nat.eqb i) T then updSize size sbsize x else x) (combine F B) = map (updSize size sbsize) B).
    { induction F as [|i F IH]; intros B' LB I; destruct B' as [|a B']; try discriminate; [reflexivity|]. cbn. rewrite (I i (or_introl eq_refl)). f_equal. apply IH; [cbn in LB; congruence|]. intros j Hj. apply I. now right. } apply K.
Qed.

Section Filter.
  Variable hash : list Z -> list Z.
  Variable encB encM : nat -> list Z -> list Z.
  Variables (sbs bs : nat) (ref bundle : Z).
  Variable prior : option (list item).
  Hypothesis Hbs : (0 < bs)%nat.
  Notation blockStep := (blockStep hash sbs bs ref bundle prior).
  Notation closeStep := (closeStep encB sbs).
  Notation mapStep := (mapStep encM bs prior).
  Variable off0 : Z.

  Fixpoint items (off size sbsize : Z) (j : Z) (l : list (list Z)) : list item :=
    match l with [] => [] | b :: r => mkItem ref sbsize bundle off size j (hash b) :: items off size sbsize (j + 1) r end.
  Definition encOf (n : nat) (T : list (list Z)) : list Z := encB n (concat T).
  Fixpoint sbItems (off : Z) (n : nat) (SB : list (list (list Z))) : list item :=
    match SB with
    | [] => []
    | T :: r => items off (Z.of_nat (length (encOf n T))) (Z.of_nat (length (concat T))) 0 T ++ sbItems (off + Z.of_nat (length (encOf n T))) (S n) r
    end.
  Fixpoint encs (n : nat) (SB : list (list (list Z))) : list Z := match SB with [] => [] | T :: r => encOf n T ++ encs (S n) r end.

  Lemma items_len off size sbz l : forall j, length (items off size sbz j l) = length l.
  Proof. induction l as [|b l IH]; intros j; cbn; [reflexivity|]. now rewrite IH. Qed.
  Lemma items_snoc off size sbz b l : forall j, items off size sbz j (l ++ [b]) = items off size sbz j l ++ [mkItem ref sbz bundle off size (j + Z.of_nat (length l)) (hash b)].
  Proof. induction l as [|c l IH]; intros j; cbn [app items length]; [now rewrite Z.add_0_r|]. rewrite IH. cbn [app]. do 3 f_equal. f_equal. lia. Qed.
  Lemma items_upd off size sbz size' sbz' l : forall j, map (updSize size sbz) (items off size' sbz' j l) = items off size sbz j l.
  Proof. induction l as [|c l IH]; intros j; cbn; [reflexivity|]. now rewrite IH. Qed.
  Lemma sbItems_len SB : forall off n, length (sbItems off n SB) = length (concat SB).
  Proof. induction SB as [|T SB IH]; intros off n; cbn; [reflexivity|]. now rewrite !app_length, items_len, IH. Qed.
  Lemma sbItems_snoc U SB : forall off n, sbItems off n (SB ++ [U]) = sbItems off n SB ++
    items (off + Z.of_nat (length (encs n SB))) (Z.of_nat (length (encOf (n + length SB) U))) (Z.of_nat (length (concat U))) 0 U.
  Proof.
    induction SB as [|T SB IH]; intros off n; cbn [app sbItems encs length]; [now rewrite app_nil_r, Nat.add_0_r, Z.add_0_r|]. rewrite IH, <- app_assoc, <- Nat.add_succ_comm. do 2 f_equal. rewrite app_length, Nat2Z.inj_add. now rewrite Z.add_assoc.
  Qed.
  Lemma encs_snoc U SB : forall n, encs n (SB ++ [U]) = encs n SB ++ encOf (n + length SB) U.
  Proof. induction SB as [|T SB IH]; intros n; cbn [app encs length]; [now rewrite app_nil_r, Nat.add_0_r|]. now rewrite IH, <- app_assoc, <- Nat.add_succ_comm. Qed.

  Definition entOk (i : nat) (e : gent) : Prop :=
    match snd e with
    | Some x => priorItem prior i = Some x /\ iSum x = hash (fst e)
    | None => forall x, priorItem prior i = Some x -> iSum x <> hash (fst e)
    end.
  Record inv (s : bi) (SB : list (list (list Z))) (cur : list (list Z)) (g : list gent) : Prop := {
    i_map : bMap s = fill g (sbItems off0 0 SB ++ items (bOffset s) 0 (Z.of_nat sbs) 0 cur);
    i_new : newBlocks g = concat SB ++ cur;
    i_ent : forall i e, nth_error g i = Some e -> entOk i e;
    i_no : bNo s = length g;
    i_off : bOffset s = off0 + Z.of_nat (length (bOut s));
    i_out : bOut s = encs 0 SB;
    i_nonce : bNonce s = length SB;
    i_raw : bRaw s = match cur with [] => None | _ => Some (concat cur) end;
    i_size : bOutSize s = length (concat cur);
    i_sbno : bSbNo s = Z.of_nat (length cur);
    i_list : cur <> [] -> bList s = skipn (length (concat SB)) (npos 0 g);
    i_write : bMapWrite s = match SB with [] => false | _ => true end;
    i_ne : Forall (fun T => T <> []) SB;
    i_msize : bMapSize s = 0%nat;
    i_outoff : bOutOff s = 0%nat }.

  Lemma inv_len s SB cur g : inv s SB cur g -> length (bMap s) = length g.
  Proof. intros I. rewrite (i_map _ _ _ _ I). apply fill_len. now rewrite (i_new _ _ _ _ I), !app_length, sbItems_len, items_len. Qed.
  Lemma inv_add s SB cur g d : inv s SB cur g -> inv (addBlk s d) SB cur g.
  Proof. intros []. constructor; assumption. Qed.
  Lemma inv_done s SB cur g d : inv s SB cur g -> inv (setDone s d) SB cur g.
  Proof. intros []. constructor; assumption. Qed.
  Lemma nth_snoc {A} (l : list A) x i y : nth_error (l ++ [x]) i = Some y -> nth_error l i = Some y \/ (i = length l /\ y = x).
  Proof.
    intros H. destruct (Nat.lt_ge_cases i (length l)) as [L|L]; [left; now rewrite nth_error_app1 in H|]. right. rewrite nth_error_app2 in H by lia. destruct (i - length l)%nat as [|k] eqn:E; [cbn in H; split; [lia|congruence]|]. destruct k; discriminate.
  Qed.
  Lemma inv_block s SB cur g : inv s SB cur g -> (bDone s && negb (length (bBlk s) =? 0)%nat) || (length (bBlk s) =? bs)%nat = true ->
    exists cur' o, inv (blockStep s) SB cur' (g ++ [(bBlk s, o)]) /\ bBlk (blockStep s) = [].
  Proof.
    intros I T. pose proof (inv_len _ _ _ _ I) as Lm. unfold BlockIncrModel.blockStep. rewrite T. pose proof (i_no _ _ _ _ I) as In'.
    assert (Ent : forall o, entOk (length g) (bBlk s, o) -> forall i e, nth_error (g ++ [(bBlk s, o)]) i = Some e -> entOk i e).
    { intros o Ho i e He. apply nth_snoc in He. destruct He as [He|(-> & ->)]; [now apply (i_ent _ _ _ _ I)|exact Ho]. }
    assert (New : entOk (length g) (bBlk s, None) -> inv (mkBi [] (Some (match bRaw s with Some r => r | None => [] end ++ bBlk s)) (match bRaw s with Some _ => bList s | None => [] end ++ [length (bMap s)])
                 (bMap s ++ [mkItem ref (Z.of_nat sbs) bundle (bOffset s) 0 (bSbNo s) (hash (bBlk s))])
                 (bOffset s) (bSbNo s + 1) (bOutSize s + length (bBlk s)) (S (bNo s)) (bMapWrite s) (bMapSize s) (bNonce s) (bOut s) (bOutOff s) (bInOff s) (bInSame s) (bDone s)) SB (cur ++ [bBlk s]) (g ++ [(bBlk s, None)])).
    { intros Ho. destruct I. constructor; cbn [bBlk bRaw bList bMap bOffset bSbNo bOutSize bNo bMapWrite bMapSize bNonce bOut bOutOff bInOff bInSame bDone]; auto.
      - rewrite items_snoc, app_assoc, fill_app; [|rewrite i_new0, !app_length, sbItems_len, items_len; reflexivity]. rewrite i_map0, i_sbno0. reflexivity.
      - rewrite newBlocks_app, i_new0, <- app_assoc. reflexivity.
      - now apply Ent.
      - rewrite app_length, i_no0. cbn. lia.
      - rewrite i_raw0. destruct cur as [|c cur]; [cbn; now rewrite app_nil_r|]. cbn [app]. change (c :: cur ++ [bBlk s]) with ((c :: cur) ++ [bBlk s]). rewrite concat_app. cbn [concat]. now rewrite app_nil_r.
      - rewrite concat_app, app_length, i_size0. cbn. now rewrite app_nil_r.
      - rewrite app_length, i_sbno0. cbn. lia.
      - intros _. rewrite npos_app. cbn [npos Nat.add]. rewrite skipn_app, Lm. assert (LN : length (npos 0 g) = (length (concat SB) + length cur)%nat) by (rewrite npos_len, i_new0, app_length; reflexivity).
        replace (length (concat SB) - length (npos 0 g))%nat with 0%nat by lia. cbn [skipn]. f_equal. rewrite i_raw0. destruct cur as [|c cur]; [|now apply i_list0]. symmetry. apply skipn_all2. cbn in LN. lia. }
    rewrite In'. destruct (priorItem prior (length g)) as [it|] eqn:Ep.
    - destruct (strEqb_spec (iSum it) (hash (bBlk s))) as [Q|Q].
      + exists cur, (Some it). split; [|reflexivity]. destruct I. constructor; cbn [bBlk bRaw bList bMap bOffset bSbNo bOutSize bNo bMapWrite bMapSize bNonce bOut bOutOff bInOff bInSame bDone]; auto.
        * rewrite <- (app_nil_r (sbItems off0 0 SB ++ _)), fill_app; [|rewrite i_new0, !app_length, sbItems_len, items_len; reflexivity]. now rewrite i_map0.
        * rewrite newBlocks_app, i_new0. cbn. now rewrite app_nil_r.
        * apply Ent. cbn. auto.
        * rewrite app_length. cbn. lia.
        * intros N. rewrite npos_app. cbn [npos]. rewrite app_nil_r. auto.
      + exists (cur ++ [bBlk s]), None. rewrite In' in New. split; [|reflexivity]. apply New. cbn. intros x Hx. congruence.
    - exists (cur ++ [bBlk s]), None. rewrite In' in New. split; [|reflexivity]. apply New. cbn. intros x Hx. congruence.
  Qed.
  Lemma inv_close s SB cur g : inv s SB cur g -> exists SB' cur', inv (closeStep s) SB' cur' g /\ bBlk (closeStep s) = bBlk s /\ (bDone s = true -> cur' = []).
  Proof.
    intros I. unfold BlockIncrModel.closeStep. rewrite (i_raw _ _ _ _ I). destruct cur as [|c cur]; [exists SB, []; auto|]. destruct (bDone s || (sbs <=? bOutSize s)%nat) eqn:T.
    - exists (SB ++ [c :: cur]), []. split; [|split; [reflexivity|auto]]. set (C := c :: cur) in *. assert (HC : C <> []) by discriminate. clearbody C. clear c cur. destruct I.
      assert (E : encB (bNonce s) (concat C) = encOf (0 + length SB) C) by (unfold encOf; now rewrite i_nonce0).
      constructor; cbn [bBlk bRaw bList bMap bOffset bSbNo bOutSize bNo bMapWrite bMapSize bNonce bOut bOutOff bInOff bInSame bDone]; auto.
      + rewrite i_map0, i_list0 by exact HC. rewrite <- (sbItems_len SB off0 0). rewrite setSizes_spec by (rewrite i_new0, !app_length, sbItems_len, items_len; reflexivity). rewrite items_upd. cbn [items]. rewrite app_nil_r, sbItems_snoc, E, i_size0, i_off0, i_out0. reflexivity.
      + rewrite i_new0, concat_app. cbn. now rewrite !app_nil_r.
      + rewrite i_off0, app_length, Nat2Z.inj_add. ring.
      + rewrite encs_snoc, E, i_out0. reflexivity.
      + rewrite app_length, i_nonce0. cbn. lia.
      + congruence.
      + now destruct SB.
      + apply Forall_app. split; [assumption|]. constructor; [exact HC|constructor].
    - exists SB, (c :: cur). split; [exact I|]. split; [reflexivity|]. intros D. rewrite D in T. discriminate.
  Qed.

  Lemma inv_absorb data : forall s SB cur g, inv s SB cur g -> bDone s = false -> (length (bBlk s) < bs)%nat -> Forall (fun e => length (fst e) = bs) g ->
    exists SB' cur' g', inv (absorb hash encB sbs bs ref bundle prior s data) SB' cur' g' /\ bDone (absorb hash encB sbs bs ref bundle prior s data) = false /\
      Forall (fun e => length (fst e) = bs) g' /\ (length (bBlk (absorb hash encB sbs bs ref bundle prior s data)) < bs)%nat /\
      concat (map fst g') ++ bBlk (absorb hash encB sbs bs ref bundle prior s data) = (concat (map fst g) ++ bBlk s) ++ data.
  Proof.
    induction data as [|x data IH]; intros s SB cur g I D L F; [cbn; exists SB, cur, g; rewrite app_nil_r; auto|]. cbn [absorb fold_left]. fold (absorb hash encB sbs bs ref bundle prior (absb hash encB sbs bs ref bundle prior s x) data).
    assert (St : exists SB1 cur1 g1, inv (absb hash encB sbs bs ref bundle prior s x) SB1 cur1 g1 /\ bDone (absb hash encB sbs bs ref bundle prior s x) = false /\ (length (bBlk (absb hash encB sbs bs ref bundle prior s x)) < bs)%nat /\
       Forall (fun e => length (fst e) = bs) g1 /\ concat (map fst g1) ++ bBlk (absb hash encB sbs bs ref bundle prior s x) = (concat (map fst g) ++ bBlk s) ++ [x]).
    { unfold absb. set (s1 := addBlk s [x]). assert (I1 : inv s1 SB cur g) by now apply inv_add. assert (D1 : bDone s1 = false) by exact D. assert (B1 : bBlk s1 = bBlk s ++ [x]) by reflexivity.
      destruct (Nat.eqb_spec (length (bBlk s1)) bs) as [Q|Q].
      - destruct (inv_block s1 SB cur g I1) as (cur2 & o & I2 & E2); [rewrite D1; now apply Nat.eqb_eq|]. destruct (inv_close _ _ _ _ I2) as (SB3 & cur3 & I3 & E3 & _). exists SB3, cur3, (g ++ [(bBlk s1, o)]).
        split; [exact I3|]. split; [rewrite close_done, block_done; exact D1|]. split; [rewrite E3, E2; exact Hbs|]. split; [apply Forall_app; split; [exact F|constructor; [exact Q|constructor]]|].
        rewrite E3, E2, map_app, concat_app. cbn [map concat fst]. now rewrite !app_nil_r, B1, app_assoc.
      - assert (Q' : (length (bBlk s1) < bs)%nat) by (rewrite B1, app_length in *; cbn in *; lia). rewrite (block_noop hash encB encB sbs bs ref bundle prior Hbs s1 D1 Q'). destruct (inv_close _ _ _ _ I1) as (SB3 & cur3 & I3 & E3 & _). exists SB3, cur3, g.
        split; [exact I3|]. split; [rewrite close_done; exact D1|]. split; [rewrite E3; exact Q'|]. split; [exact F|]. rewrite E3, B1. now rewrite app_assoc. }
    destruct St as (SB1 & cur1 & g1 & I1 & D1 & L1 & F1 & E1). destruct (IH _ _ _ _ I1 D1 L1 F1) as (SB2 & cur2 & g2 & I2 & D2 & F2 & L2 & E2). exists SB2, cur2, g2. split; [exact I2|]. split; [exact D2|]. split; [exact F2|]. split; [exact L2|]. refine (eq_trans E2 _). rewrite E1, <- app_assoc. reflexivity.
  Qed.

  (** The final map and output *)
  Lemma incr_result data f : finish hash encB encM sbs bs ref bundle prior (absorb hash encB sbs bs ref bundle prior (incrNew off0) data) = Ok f ->
    exists g SB w, isBlocks bs data (map fst g) /\ (forall i e, nth_error g i = Some e -> entOk i e) /\ newBlocks g = concat SB /\ Forall (fun T => T <> []) SB /\
      blockMapWrite (Z.of_nat bs) (fill g (sbItems off0 0 SB)) = Ok w /\
      let wrote := match SB with [] => (length g <? priorSize prior)%nat | _ => true end in
      let e := if wrote then encM (length SB) w else [] in
      bOut f = encs 0 SB ++ e /\ bMapSize f = length e.
  Proof.
    intros Hf. destruct (inv_absorb data (incrNew off0) [] [] []) as (SB & cur & g & I & D & F & L & E); [constructor; cbn; auto; try lia; try congruence; intros [|?] ? ?; discriminate|reflexivity|exact Hbs|constructor|]. cbn [map concat app incrNew bBlk] in E.
    set (a := absorb hash encB sbs bs ref bundle prior (incrNew off0) data) in *. unfold finish in Hf.
    assert (K : exists SB' g', inv (closeStep (blockStep (setDone a true))) SB' [] g' /\ isBlocks bs data (map fst g')).
    { assert (Ia : inv (setDone a true) SB cur g) by now apply inv_done. destruct (Nat.eqb_spec (length (bBlk a)) 0) as [Q|Q].
      - rewrite (block_empty hash encB encB sbs bs ref bundle prior Hbs) by (cbn; now destruct (bBlk a)). destruct (inv_close _ _ _ _ Ia) as (SB2 & cur2 & I2 & _ & C2). rewrite (C2 eq_refl) in I2. exists SB2, g. split; [exact I2|]. pose proof (BlockCheckProof.full_blocks bs Hbs (map fst g) (bBlk a)) as B. rewrite Q, E in B. apply B; [|exact Hbs].
        apply Forall_map. exact F.
      - destruct (inv_block _ _ _ _ Ia) as (cur2 & o & I2 & _); [cbn; rewrite (proj2 (Nat.eqb_neq _ _) Q); reflexivity|]. destruct (inv_close _ _ _ _ I2) as (SB3 & cur3 & I3 & _ & C3). rewrite block_done in C3. rewrite (C3 eq_refl) in I3. exists SB3, (g ++ [(bBlk (setDone a true), o)]). split; [exact I3|].
        pose proof (BlockCheckProof.full_blocks bs Hbs (map fst g) (bBlk a)) as B. rewrite (proj2 (Nat.eqb_neq _ _) Q), E in B. rewrite map_app. apply B; [apply Forall_map; exact F|exact L]. }
    destruct K as (SB' & g' & I' & B'). set (z := closeStep (blockStep (setDone a true))) in *. assert (Dz : bDone z = true) by (unfold z; rewrite close_done, block_done; reflexivity). clearbody z. clear I D F L E SB cur g a.
    pose proof (inv_len _ _ _ _ I') as Lm. destruct I'. cbn [items] in i_map0. rewrite app_nil_r in *. destruct (blockMapWrite_ok (Z.of_nat bs) (bMap z)) as (w & Ew). exists g', SB', w.
    split; [exact B'|]. split; [exact i_ent0|]. split; [exact i_new0|]. split; [exact i_ne0|]. split; [rewrite <- i_map0; exact Ew|]. cbv zeta.
    unfold BlockIncrModel.mapStep in Hf. rewrite Dz, i_outoff0, i_write0, Lm, Ew, i_nonce0 in Hf. cbn [andb Nat.eqb bind] in Hf. destruct SB' as [|T SB'].
    - cbn [orb] in Hf. unfold gent in *. revert Hf. destruct (length g' <? priorSize prior)%nat; intros Hf; injection Hf as <-; cbn [bOut bMapSize encs app length]; rewrite ?i_out0, ?i_msize0; auto.
    - cbn [orb] in Hf. injection Hf as <-. cbn. rewrite i_out0. auto.
  Qed.
End Filter.
