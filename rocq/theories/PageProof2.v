From Coq Require Import Sorted.
From Verif Require Import Base Str PageModel PageSpec PageProof.
Open Scope nat_scope.

Definition addErr (e : option (list Z)) (l : list Z) : option (list Z) :=
  match l with [] => e | _ => Some (match e with None => [] | Some x => x end ++ l) end.

Lemma addErr_app e a b : addErr (addErr e a) b = addErr e (a ++ b).
Proof.
  destruct a as [|x a]; [reflexivity|]. destruct b as [|y b]; [cbn; rewrite app_nil_r; reflexivity|]. cbn. rewrite <- app_assoc. reflexivity.
Qed.
Lemma addErr_none l : addErr None l = match l with [] => None | _ => Some l end.
Proof. destruct l; reflexivity. Qed.

Lemma skipn_app_all {A} (a b : list A) k : skipn (length a + k) (a ++ b) = skipn k b.
Proof. induction a; [reflexivity|]. cbn. assumption. Qed.

Section Run.
  Variables (seg : Z) (size : nat) (hc : bool) (reread : Z -> option (list Z)).
  Hypothesis V : validSize size.
  Let Hs : 1024 <= size. Proof. destruct (valid_mult size V) as (m & H); lia. Qed.

  Lemma zero_spec page : length page = size -> pageZero size page = true <-> allZero page.
  Proof.
    intros L. unfold pageZero, allZero. destruct (valid_mult size V) as (m & Em & _).
    assert (E : size / 8 * 8 = size). { rewrite Em. replace (128 * m) with (16 * m * 8) by lia. rewrite Nat.div_mul by lia. reflexivity. }
    rewrite E, <- L, firstn_all, forallb_forall, Forall_forall. split; intros H x Hx; specialize (H x Hx).
    - apply Z.eqb_eq in H. auto. - subst. reflexivity.
  Qed.

  Lemma zero_key page o : allZero page -> u16At page o = 0%Z.
  Proof.
    intros H. assert (N : forall i, nth i page 0%Z = 0%Z).
    { intros i. destruct (Nat.ltb_spec i (length page)) as [Hi|Hi]; [|apply nth_overflow; lia]. unfold allZero in H. rewrite Forall_forall in H. apply H, nth_In. exact Hi. }
    unfold u16At. rewrite !N. reflexivity.
  Qed.

  Lemma u16_same page o : u16At page o = u16 page o.
  Proof. unfold u16At, u16. rewrite Nat.add_1_r. reflexivity. Qed.

  Definition okb (page : list Z) (blockNo : Z) : bool :=
    let key := if hc then pdUpper page else pdChecksum page in
    if Z.eqb key 0 then pageZero size page else Z.eqb (pdChecksum page) (pgPageChecksum size page blockNo).

  Lemma ok_good page block : length page = size -> okb page block = true <-> pageGood size hc page block.
  Proof.
    intros L. unfold okb, pageGood. cbv zeta. rewrite <- (checksum_exact size page block V L).
    assert (K : (if hc then pdUpper page else pdChecksum page) = newKey hc page). { unfold newKey, pdUpper, pdChecksum. rewrite <- !u16_same. reflexivity. }
    rewrite K. rewrite <- (u16_same page 8). destruct (Z.eqb_spec (newKey hc page) 0) as [E|E].
    - rewrite (zero_spec page L). split; [left; assumption|]. intros [H|(H & _)]; [assumption|contradiction].
    - rewrite Z.eqb_eq. unfold pdChecksum. split; [intros H; right; split; assumption|]. intros [H|(_ & H)]; [|assumption].
      exfalso. apply E. rewrite <- K. unfold pdUpper, pdChecksum. destruct hc; apply zero_key; assumption.
  Qed.

  Lemma check_eq page block p' : reread ((block mod seg) * Z.of_nat size) = Some p' ->
    pageCheck seg size hc reread page block = Ok (negb (okb page block) && strEqb p' page).
  Proof. intros H. unfold pageCheck, okb. cbv zeta. rewrite H. destruct (Z.eqb _ 0); [destruct (pageZero _ _)|destruct (Z.eqb _ _)]; reflexivity. Qed.

  Lemma loop_spec (P : nat -> bool) input base align tot n : forall idx e,
    (forall i, idx <= i < idx + n ->
      (if align || (i <? tot - 1) then pageCheck seg size hc reread (firstn size (skipn (i * size) input)) (u32 (base + Z.of_nat i)) else Ok true) = Ok (P i)) ->
    pageLoop seg size hc reread input base align tot idx n e = Ok (addErr e (map (fun i => u32 (base + Z.of_nat i)) (filter P (seq idx n)))).
  Proof.
    induction n as [|n IH]; intros idx e H; [reflexivity|]. cbn [pageLoop seq filter]. rewrite H by lia. cbn [bind].
    rewrite IH by (intros i Hi; apply H; lia). f_equal. destruct (P idx); [|reflexivity]. cbn [map].
    change (u32 (base + Z.of_nat idx) :: ?l) with ([u32 (base + Z.of_nat idx)] ++ l). rewrite <- addErr_app. reflexivity.
  Qed.

  (** a whole file *)
  Variable file : list Z.
  Variable base : Z.
  Variable now : nat -> list Z.
  Let pages := length file / size + (if length file mod size =? 0 then 0 else 1).
  Hypothesis Hseg : (0 < seg)%Z.
  Hypothesis Hbase : (base mod seg = 0 /\ 0 <= base)%Z.
  Hypothesis Hfit : (Z.of_nat pages <= seg)%Z.
  Hypothesis Hmax : (base + Z.of_nat pages < 2 ^ 32)%Z.
  Hypothesis Hre : forall k, k < length file / size -> reread (Z.of_nat (k * size)) = Some (now k).

  Definition badb (k : nat) : bool := negb (okb (pageAt size file k) (base + Z.of_nat k)) && strEqb (now k) (pageAt size file k).

  Lemma pageAt_len k : k < length file / size -> length (pageAt size file k) = size.
  Proof.
    intros H. unfold pageAt. rewrite firstn_length, skipn_length.
    assert ((k + 1) * size <= length file). { transitivity (length file / size * size); [apply Nat.mul_le_mono_r; lia|]. rewrite Nat.mul_comm. apply Nat.mul_div_le. lia. }
    lia.
  Qed.

  Lemma badb_spec k : k < length file / size -> badb k = true <-> pageBad size hc now file base k.
  Proof.
    intros H. unfold badb, pageBad. rewrite andb_true_iff, negb_true_iff, strEqb_eq, <- not_true_iff_false, (ok_good _ _ (pageAt_len k H)). tauto.
  Qed.

  Lemma pages_ge : length file / size <= pages.
  Proof. unfold pages. lia. Qed.

  Lemma u32_id x : (0 <= x < 2 ^ 32)%Z -> u32 x = x.
  Proof. intros. unfold u32. apply Z.mod_small. assumption. Qed.

  Lemma check_page k : k < length file / size -> pageCheck seg size hc reread (pageAt size file k) (base + Z.of_nat k) = Ok (badb k).
  Proof.
    intros H. pose proof pages_ge. assert (E : ((base + Z.of_nat k) mod seg * Z.of_nat size = Z.of_nat (k * size))%Z).
    { rewrite <- Z.add_mod_idemp_l by lia. destruct Hbase as (-> & _). rewrite Z.add_0_l, Z.mod_small by lia. lia. }
    apply check_eq. rewrite E. apply Hre. exact H.
  Qed.

  (** errors among pages 0 .. n-1 *)
  Definition errs (n : nat) : list Z := map (fun k => (base + Z.of_nat k)%Z) (filter badb (seq 0 n)).
  Definition stateAt (n : nat) : pageState := mkPs (base + Z.of_nat n) true true (addErr None (errs n)).

  Lemma new_state segmentNo : base = (segmentNo * seg)%Z -> pageNew seg segmentNo = stateAt 0.
  Proof. intros E. unfold pageNew, stateAt. rewrite <- E, Z.add_0_r. rewrite u32_id by lia. reflexivity. Qed.

  Lemma errs_split n m : errs (n + m) = errs n ++ map (fun i => (base + Z.of_nat (n + i))%Z) (filter (fun i => badb (n + i)) (seq 0 m)).
  Proof.
    unfold errs. rewrite seq_app, filter_app, map_app. f_equal. cbn [Nat.add].
    replace (seq n m) with (map (fun i => n + i) (seq 0 m)).
    2:{ clear. revert n. induction m as [|m IH]; intros n; [reflexivity|]. cbn [seq map]. f_equal; [lia|]. rewrite <- seq_shift, map_map. rewrite <- (IH (S n)). apply map_ext. intros; lia. }
    induction (seq 0 m) as [|i l IH]; [reflexivity|]. cbn [map filter]. destruct (badb (n + i)); cbn [map]; rewrite IH; reflexivity.
  Qed.

  (** a part of the file that starts at a page *)
  Section Buf.
    Variables (pre buf post : list Z).
    Hypothesis Efile : file = pre ++ buf ++ post.
    Variable n : nat.
    Hypothesis Epre : length pre = n * size.
    Let q := length buf / size.

    Lemma buf_le : n + q <= length file / size.
    Proof.
      rewrite Efile, !app_length, Epre. rewrite Nat.div_add_l by lia. apply Nat.add_le_mono_l. unfold q. apply Nat.div_le_mono; lia.
    Qed.

    Lemma buf_page i : i < q -> firstn size (skipn (i * size) buf) = pageAt size file (n + i).
    Proof.
      intros Hi. unfold pageAt. rewrite Efile. replace ((n + i) * size) with (length pre + i * size) by lia. rewrite skipn_app_all.
      assert (B : (i + 1) * size <= length buf). { transitivity (q * size); [apply Nat.mul_le_mono_r; lia|]. unfold q. rewrite Nat.mul_comm. apply Nat.mul_div_le. lia. }
      rewrite skipn_app, firstn_app, skipn_length. replace (size - (length buf - i * size)) with 0 by lia. cbn [firstn]. rewrite app_nil_r. reflexivity.
    Qed.

    Lemma buf_check i : i < q -> pageCheck seg size hc reread (firstn size (skipn (i * size) buf)) (u32 (base + Z.of_nat n + Z.of_nat i)) = Ok (badb (n + i)).
    Proof.
      intros Hi. pose proof buf_le. pose proof pages_ge. rewrite buf_page by exact Hi. rewrite u32_id by lia.
      replace (base + Z.of_nat n + Z.of_nat i)%Z with (base + Z.of_nat (n + i))%Z by lia. apply check_page. lia.
    Qed.

    Lemma process_aligned : length buf mod size = 0 -> pageProcess seg size hc reread (stateAt n) buf = Ok (stateAt (n + q)).
    Proof.
      intros A. pose proof buf_le as B. pose proof pages_ge. unfold pageProcess. rewrite A. cbn [Nat.eqb bind psValid psNo psAlign psError stateAt].
      fold q. rewrite (loop_spec (fun i => badb (n + i))).
      - cbn [bind]. rewrite addErr_app. unfold stateAt. rewrite u32_id by lia. do 2 f_equal; [lia|]. rewrite errs_split. do 2 f_equal.
        apply map_ext_in. intros i Hi. apply filter_In in Hi. destruct Hi as (Hi & _). apply in_seq in Hi. rewrite u32_id by lia. lia.
      - intros i Hi. cbn [orb]. apply buf_check. lia.
    Qed.

    Lemma process_misaligned : length buf mod size <> 0 -> post = [] ->
      exists no valid e, pageProcess seg size hc reread (stateAt n) buf = Ok (mkPs no valid false e) /\ e <> Some [] /\ (valid = true -> e <> None).
    Proof.
      intros A Ep. pose proof buf_le as B. unfold pageProcess. destruct (Nat.eqb_spec (length buf mod size) 0) as [E|_]; [contradiction|].
      cbn [psAlign stateAt negb]. destruct (512 <=? length buf mod size) eqn:E512; cbn [bind psValid psNo psError psAlign].
      - fold q. rewrite (loop_spec (fun i => if i <? q then badb (n + i) else true)).
        + cbn [bind stateAt psError]. rewrite addErr_app. do 3 eexists. split; [reflexivity|].
          assert (N : forall l (x : Z), addErr None (l ++ [x]) <> Some [] /\ addErr None (l ++ [x]) <> None) by (intros [|y l] x; split; discriminate).
          replace (S q) with (q + 1) by lia. rewrite seq_app, filter_app, map_app. cbn [seq filter Nat.add]. rewrite Nat.ltb_irrefl. cbn [map].
          rewrite app_assoc. split; [apply N|intros _; apply N].
        + intros i Hi. cbn [orb]. replace (S q - 1) with q by lia. destruct (i <? q) eqn:Ei; [apply buf_check; apply Nat.ltb_lt; exact Ei|reflexivity].
      - do 3 eexists. split; [reflexivity|]. split; [|discriminate]. cbn [stateAt psError]. destruct (errs n); discriminate.
    Qed.
  End Buf.

  Lemma run_aligned bufs : forall pre n post, file = pre ++ concat bufs ++ post -> length pre = n * size -> Forall (fun b => length b mod size = 0) bufs ->
    pageRun seg size hc reread (stateAt n) bufs = Ok (stateAt (n + length (concat bufs) / size)) /\ length (concat bufs) mod size = 0.
  Proof.
    induction bufs as [|b bufs IH]; intros pre n post E L F.
    - cbn [pageRun concat length]. rewrite Nat.div_0_l, Nat.mod_0_l, Nat.add_0_r by lia. auto.
    - inversion F as [|? ? F1 F2]; subst. cbn [pageRun concat] in *. rewrite <- app_assoc in E.
      rewrite (process_aligned pre b (concat bufs ++ post) E n L F1). cbn [bind].
      apply Nat.mod_divides in F1; [|lia]. destruct F1 as (q & Eq).
      assert (Dq : length b / size = q) by (rewrite Eq, Nat.mul_comm, Nat.div_mul by lia; reflexivity). rewrite Dq.
      destruct (IH (pre ++ b) (n + q) post) as (R & M); [rewrite <- app_assoc; exact E|rewrite app_length; lia|exact F2|].
      rewrite R, app_length, Eq. replace (size * q) with (q * size) by lia. split; [rewrite Nat.div_add_l by lia; do 2 f_equal; lia|]. rewrite Nat.add_comm, Nat.mod_add by lia. exact M.
  Qed.
End Run.

(** * Ranges *)
Definition toItem (i : pageItem) : item := match i with Page n => One n | Range a b => Span a b end.

Lemma expand_app a b : expand (a ++ b) = expand a ++ expand b.
Proof. unfold expand. apply flat_map_app. Qed.

Lemma span_expand a b : (a <= b)%Z -> expandItem (toItem (if Z.eqb a b then Page a else Range a b)) = map (fun k => (a + Z.of_nat k)%Z) (seq 0 (Z.to_nat (b - a + 1))).
Proof.
  intros H. destruct (Z.eqb_spec a b) as [->|N]; [|reflexivity]. replace (b - b + 1)%Z with 1%Z by lia. change (Z.to_nat 1) with 1. cbn. rewrite Z.add_0_r. reflexivity.
Qed.

Lemma span_snoc a b : (a <= b)%Z -> map (fun k => (a + Z.of_nat k)%Z) (seq 0 (Z.to_nat (b + 1 - a + 1))) = map (fun k => (a + Z.of_nat k)%Z) (seq 0 (Z.to_nat (b - a + 1))) ++ [(b + 1)%Z].
Proof.
  intros H. replace (Z.to_nat (b + 1 - a + 1)) with (Z.to_nat (b - a + 1) + 1) by lia. rewrite seq_app, map_app. cbn [seq map Nat.add]. do 2 f_equal. lia.
Qed.

Definition lastHigh (l : list item) (x : Z) : Prop := match rev l with [] => True | i :: _ => (highOf i + 1 < x)%Z end.

Lemma compact_snoc l i : compact l -> lastHigh l (lowOf i) -> (match i with One _ => True | Span a b => (a < b)%Z end) -> compact (l ++ [i]).
Proof.
  induction l as [|x l IH]; intros C H Hi; [cbn; auto|]. cbn [compact app] in *. destruct C as (C1 & C2 & C3). split; [exact C1|].
  destruct l as [|y l]; [cbn in *; auto|]. split; [exact C2|]. apply IH; [exact C3| |exact Hi]. unfold lastHigh in *. cbn [rev] in *.
  destruct (rev l); cbn [app] in *; exact H.
Qed.

Lemma merge_spec l : forall result pb pe,
  (0 <= pb <= pe)%Z -> StronglySorted Z.lt (pe :: l) -> Forall (fun x => (x < 2 ^ 32 - 1)%Z) (pe :: l) -> compact (map toItem result) -> lastHigh (map toItem result) pb ->
  let r := map toItem (mergeLoop result pb pe l) in
  expand r = expand (map toItem result) ++ map (fun k => (pb + Z.of_nat k)%Z) (seq 0 (Z.to_nat (pe - pb + 1))) ++ l /\ compact r.
Proof.
  assert (O : forall result pb pe, (pb <= pe)%Z -> compact (map toItem result) -> lastHigh (map toItem result) pb ->
     expand (map toItem (pageOut result pb pe)) = expand (map toItem result) ++ map (fun k => (pb + Z.of_nat k)%Z) (seq 0 (Z.to_nat (pe - pb + 1)))
     /\ compact (map toItem (pageOut result pb pe)) /\ forall x, (pe + 1 < x)%Z -> lastHigh (map toItem (pageOut result pb pe)) x).
  { intros result pb pe H C L. unfold pageOut. rewrite map_app, expand_app. cbn [map]. split; [|split].
    - f_equal. cbn [expand flat_map]. rewrite app_nil_r. apply span_expand. exact H.
    - apply compact_snoc; [exact C| |]; destruct (Z.eqb_spec pb pe); cbn [toItem lowOf]; auto; lia.
    - intros x Hx. unfold lastHigh. rewrite rev_app_distr. cbn [rev app]. destruct (Z.eqb_spec pb pe); cbn [toItem highOf]; lia. }
  induction l as [|x l IH]; intros result pb pe H S F C L; cbn [mergeLoop].
  - cbv zeta. destruct (O result pb pe) as (A & B & _); [lia|assumption..|]. rewrite app_nil_r. auto.
  - apply StronglySorted_inv in S. destruct S as (S & Hlt). inversion Hlt as [|? ? Hx _]; subst. inversion F as [|? ? F1 F2]; subst.
    rewrite u32_id by lia. destruct (Z.eqb_spec x (pe + 1)) as [->|N].
    + specialize (IH result pb (pe + 1)%Z). cbv zeta in *. destruct IH as (A & B); [lia|exact S|exact F2|exact C|exact L|]. split; [|exact B].
      rewrite A, span_snoc by lia. rewrite <- !app_assoc. reflexivity.
    + destruct (O result pb pe) as (A & B & D); [lia|assumption..|].
      specialize (IH (pageOut result pb pe) x x). cbv zeta in *. destruct IH as (A' & B'); [lia|exact S|exact F2|exact B|apply D; lia|]. split; [|exact B'].
      rewrite A', A, <- !app_assoc. replace (x - x + 1)%Z with 1%Z by lia. change (Z.to_nat 1) with 1. cbn [seq map app Z.of_nat]. rewrite Z.add_0_r. reflexivity.
Qed.

Lemma merge_nonempty result pb pe l : mergeLoop result pb pe l <> [].
Proof. revert result pb pe. induction l as [|x l IH]; intros; cbn [mergeLoop]; [unfold pageOut; destruct result; discriminate|]. destruct (Z.eqb _ _); apply IH. Qed.

Lemma merge_all e : e <> Some [] -> exists r, pageMerge e = Ok r.
Proof. intros H. destruct e as [[|x l]|]; [contradiction| |]; eexists; reflexivity. Qed.

(** * The file as a whole *)
Lemma filter_sorted base P n m : StronglySorted Z.lt (map (fun k => (base + Z.of_nat k)%Z) (filter P (seq n m))).
Proof.
  revert n. induction m as [|m IH]; intros n; [constructor|]. cbn [seq filter]. destruct (P n); [|apply IH]. cbn [map]. constructor; [apply IH|].
  rewrite Forall_map, Forall_forall. intros k Hk. apply filter_In in Hk. destruct Hk as (Hk & _). apply in_seq in Hk. lia.
Qed.

Section File.
  Variables (seg : Z) (size : nat) (hc : bool) (reread : Z -> option (list Z)) (segmentNo : Z) (bufs : list (list Z)) (last : list Z) (now : nat -> list Z).
  Let file := concat (bufs ++ [last]).
  Let base := (segmentNo * seg)%Z.
  Let n := length file / size.
  Hypothesis V : validSize size.
  Hypothesis Hseg : (0 < seg)%Z.
  Hypothesis Hno : (0 <= segmentNo)%Z.
  Hypothesis Hfit : (Z.of_nat (pageCount size file) <= seg)%Z.
  Hypothesis Hmax : (base + Z.of_nat (pageCount size file) < 2 ^ 32)%Z.
  Hypothesis Hre : forall k, k < n -> reread (Z.of_nat (k * size)) = Some (now k).
  Hypothesis Hal : Forall (fun b => length b mod size = 0) bufs.

  Lemma file_spec : exists flag lst ks,
    pageFile seg size hc reread segmentNo (bufs ++ [last]) = Ok (flag, lst) /\
    StronglySorted lt ks /\ (forall k, In k ks <-> k < n /\ pageBad size hc now file base k) /\
    (flag = true <-> length file mod size <> 0 \/ ks <> []) /\
    (length file mod size <> 0 -> lst = None) /\
    (length file mod size = 0 -> match lst with
                                 | None => ks = []
                                 | Some l => ks <> [] /\ expand (map toItem l) = map (fun k => (base + Z.of_nat k)%Z) ks /\ compact (map toItem l)
                                 end).
  Proof.
    assert (Hs : 1024 <= size) by (destruct (valid_mult size V) as (m & H); lia).
    assert (Hb : (base mod seg = 0 /\ 0 <= base)%Z) by (unfold base; split; [apply Z.mod_mul; lia|nia]).
    assert (Hp := Hfit). assert (Hm := Hmax). unfold pageCount in Hp, Hm. assert (Hn : n <= pageCount size file) by (unfold pageCount, n; lia).
    set (ks := filter (badb size hc file base now) (seq 0 n)).
    assert (Ks : StronglySorted lt ks).
    { unfold ks. apply StronglySorted_filter. generalize 0. clear. induction n as [|m IH]; intros o; [constructor|]. cbn. constructor; [apply IH|].
      apply Forall_forall. intros x Hx. apply in_seq in Hx. lia. }
    assert (Kin : forall k, In k ks <-> k < n /\ pageBad size hc now file base k).
    { intros k. unfold ks. rewrite filter_In, in_seq. split.
      - intros (A & B). assert (k < n) by lia. split; [assumption|]. apply (badb_spec seg size hc reread V file base now Hseg Hb Hre k); assumption.
      - intros (A & B). split; [lia|]. apply (badb_spec seg size hc reread V file base now Hseg Hb Hre k); assumption. }
    assert (EF : file = [] ++ concat bufs ++ last) by (unfold file; rewrite concat_app; cbn; rewrite app_nil_r; reflexivity).
    destruct (run_aligned seg size hc reread V file base now Hseg Hb Hp Hm Hre bufs [] 0 last EF eq_refl Hal) as (R & M).
    assert (RA : forall s b r l, pageRun seg size hc reread s (l ++ [b]) = r <-> (let* s' := pageRun seg size hc reread s l in pageProcess seg size hc reread s' b) = r).
    { intros s b r l. revert s. induction l as [|x l IH]; intros s; cbn [app pageRun bind].
      - destruct (pageProcess seg size hc reread s b); reflexivity. - destruct (pageProcess seg size hc reread s x); cbn [bind]; [apply IH|reflexivity|reflexivity]. }
    unfold pageFile. rewrite (new_state seg size hc reread V file base now Hseg Hb Hm Hre segmentNo eq_refl). 
    apply Nat.mod_divides in M; [|lia]. destruct M as (q & Eq). rewrite Eq, (Nat.mul_comm size q), Nat.div_mul in R by lia. cbn [Nat.add] in R.
    assert (EL : length file = q * size + length last) by (rewrite EF; cbn [app]; rewrite app_length; lia).
    assert (ML : length file mod size = length last mod size) by (rewrite EL, Nat.add_comm, Nat.mod_add by lia; reflexivity).
    assert (DL : n = q + length last / size) by (unfold n; rewrite EL, Nat.div_add_l by lia; reflexivity).
    assert (EF' : file = concat bufs ++ last ++ []) by (rewrite app_nil_r; exact EF).
    assert (Lq : length (concat bufs) = q * size) by lia.
    destruct (Nat.eq_dec (length file mod size) 0) as [A|A].
    - rewrite ML in A. assert (P := process_aligned seg size hc reread V file base now Hseg Hb Hp Hm Hre (concat bufs) last [] EF' q Lq A). rewrite <- DL in P.
      assert (RR := proj2 (RA (stateAt size hc file base now 0) last _ bufs) eq_refl). rewrite R in RR. cbn [bind] in RR. rewrite P in RR. rewrite RR. cbn [bind].
      unfold pageResult, stateAt, psError. rewrite addErr_none. unfold errs. fold ks.
      destruct ks as [|k ks'] eqn:Ek; cbn [map].
      + exists false, None, []. split; [reflexivity|]. split; [exact Ks|]. split; [exact Kin|]. rewrite ML. split; [split; [discriminate|intros [H|H]; contradiction]|]. auto.
      + assert (Sz := filter_sorted base (badb size hc file base now) 0 n). fold ks in Sz. rewrite Ek in Sz. cbn [map] in Sz.
        assert (Bd : Forall (fun x => (x < 2 ^ 32 - 1)%Z) ((base + Z.of_nat k)%Z :: map (fun k0 => (base + Z.of_nat k0)%Z) ks')).
        { change (Forall (fun x => (x < 2 ^ 32 - 1)%Z) (map (fun k0 => (base + Z.of_nat k0)%Z) (k :: ks'))). rewrite Forall_map, Forall_forall. intros x Hx.
          apply Kin in Hx. lia. }
        pose proof (merge_spec _ [] _ _ (conj (Z.add_nonneg_nonneg _ _ (proj2 Hb) (Nat2Z.is_nonneg k)) (Z.le_refl _)) Sz Bd I I) as (X & C). cbv zeta in X, C.
        cbn [pageManifest pageMerge bind psAlign negb]. set (l := mergeLoop _ _ _ _) in *. assert (Nl : l <> []) by apply merge_nonempty.
        exists true, (Some l), (k :: ks'). split; [destruct l; [contradiction|reflexivity]|]. split; [exact Ks|]. split; [exact Kin|]. rewrite ML.
        split; [split; [right; discriminate|reflexivity]|]. split; [contradiction|]. intros _. split; [discriminate|]. split; [|exact C].
        rewrite X. replace (base + Z.of_nat k - (base + Z.of_nat k) + 1)%Z with 1%Z by lia. change (Z.to_nat 1) with 1. cbn [seq map app expand flat_map Z.of_nat]. rewrite Z.add_0_r. reflexivity.
    - destruct (process_misaligned seg size hc reread V file base now Hseg Hb Hp Hm Hre (concat bufs) last [] EF' q Lq ltac:(rewrite <- ML; exact A) eq_refl) as (no & valid & e & P & Ne & Nv).
      assert (RR := proj2 (RA (stateAt size hc file base now 0) last _ bufs) eq_refl). rewrite R in RR. cbn [bind] in RR. rewrite P in RR. rewrite RR. cbn [bind].
      exists true, None, ks. split.
      + unfold pageResult. cbn [psError psAlign psValid]. destruct e as [l|]; cbn [pageManifest].
        * destruct (merge_all (Some l) Ne) as (r & ->). reflexivity.
        * destruct valid; [exfalso; apply Nv; reflexivity|]. reflexivity.
      + split; [exact Ks|]. split; [exact Kin|]. split; [split; [left; exact A|reflexivity]|]. split; [reflexivity|contradiction].
  Qed.
End File.

(** Buffers smaller than a page *)
Lemma split_assert seg size hc reread segmentNo b : 512 <= length b < size -> pageFile seg size hc reread segmentNo [b; b] = Err EAssert.
Proof.
  intros L. assert (D : length b / size = 0) by (apply Nat.div_small; lia). assert (M : length b mod size = length b) by (apply Nat.mod_small; lia).
  unfold pageFile. cbn [pageRun]. unfold pageProcess at 1. rewrite D, M. destruct (Nat.eqb_spec (length b) 0) as [E|_]; [lia|]. cbn [pageNew psAlign negb].
  destruct (512 <=? length b) eqn:E; [|apply Nat.leb_gt in E; lia]. cbn [bind psValid psNo psAlign psError pageLoop orb Nat.ltb Nat.leb Nat.sub].
  unfold pageProcess. rewrite M. destruct (Nat.eqb_spec (length b) 0); [lia|]. reflexivity.
Qed.
