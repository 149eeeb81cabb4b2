(** The value of an option with the rules looked up *)
From Coq Require Import Lia Sorting.Sorted.
From Verif Require Import Base Str ConvertModel NumModel NumSpec NumProof OptNameModel OptLoadModel OptLoadProof OptSizeModel OptSizeSpec OptSizeProof OptSizeProof2 OptValueModel OptValueSpec OptValueProof.
Open Scope Z_scope.
Open Scope list_scope.

Definition limits (l : list orule) (m : str) : option (Z * Z) := match look l 3 with Some (ORange (RangeAll lo hi)) => Some (lo, hi) | Some (ORange (RangeMap rs)) => findMatch rs m | _ => None end.
Definition setValueF (ty : otype) (v : pvalue) (sq : bool) (m : str) (l : list orule) : res (oval * option str * Z) :=
  match ty with
  | TBoolean => Ok (VBool (negb (pvNegate v)), None, 0)
  | THash => let* h := hashValue (pvValues v) [] in Ok (VHash h, None, 0)
  | TList => Ok (VList (pvValues v), None, 0)
  | ty =>
      match pvValues v with
      | [] => UB
      | s :: _ =>
          let* vs :=
            (if isNum ty then
               let* n := intValue ty s in
               match limits l m with
               | Some (lo, hi) => if (n <? lo) || (hi <? n) then Err EOptionInvalidValue else Ok (VInt n, n)
               | None => Ok (VInt n, n)
               end
             else if isSid ty then Ok (VZero, 0)
             else
               match s with
               | [] => Err EOptionInvalidValue
               | _ => match ty with TPath => let* p := pathValue s in Ok (VStr p, 0) | _ => Ok (VStr s, 0) end
               end) in
          match look l 4 with
          | Some (OAllow al) => let* q := allowValue (isSid ty) al s (snd vs) in Ok (fst vs, Some s, if isSid ty && sq then q else 0)
          | _ => Ok (fst vs, Some s, 0)
          end
      end
  end.

Section Eq.
Variable rules : list rule.
Variable sequence : nat -> bool.
Variable optional : nat -> list rgroup.
Variable cmd : nat.
Variable help : bool.
Variable bin : str.
Variable betaId : nat.
Variable first : str.
Variable t : table.
Variable o : nat.
Let l := groupRules (optional o) cmd.
Hypothesis O : ordered l.

Lemma ask_eq st k k' : 0 <= k -> k < k' -> stAt (optional o) cmd st k -> exists st', ask (optional o) cmd st k' = (st', look l k') /\ stAt (optional o) cmd st' k'.
Proof. intros K0 K S. pose proof (ask_spec (optional o) cmd st k k' O K0 K S) as A. destruct (ask (optional o) cmd st k') as [st' a]. destruct A as [-> A]. exists st'. auto. Qed.

Lemma setValue_eq r v sq m st : stAt (optional o) cmd st 2 -> exists st' k', 2 <= k' <= 4 /\ stAt (optional o) cmd st' k' /\
  setValue optional cmd o r v sq m st = match setValueF (rType r) v sq m l with Ok (x, d, q) => Ok (x, d, q, st') | Err e => Err e | UB => UB end.
Proof.
  intros S. unfold setValue, setValueF. destruct (rType r) eqn:T; cbn [isNum isSid]; try (exists st, 2; split; [lia|]; split; [exact S|]; destruct (hashValue (pvValues v) []); reflexivity); try (exists st, 2; split; [lia|]; split; [exact S|reflexivity]);
    (destruct (pvValues v) as [|s rest]; [exists st, 2; split; [lia|]; split; [exact S|reflexivity]|]).
  1,3,6: destruct (ask_eq st 2 3 ltac:(lia) ltac:(lia) S) as (st3 & A3 & S3); destruct (ask_eq st3 3 4 ltac:(lia) ltac:(lia) S3) as (st4 & A4 & S4); exists st4, 4; split; [lia|]; split; [exact S4|];
    destruct (intValue _ s) as [n| |]; cbn [bind]; try reflexivity; rewrite A3; cbv iota beta; fold (limits l m);
    (replace (match look l 3 with Some (ORange (RangeAll lo hi)) => Some (lo, hi) | Some (ORange (RangeMap l0)) => findMatch l0 m | _ => None end) with (limits l m) by reflexivity);
    destruct (limits l m) as [[lo hi]|]; [destruct ((n <? lo) || (hi <? n)); cbn [bind]; [reflexivity|]|cbn [bind]]; rewrite A4; cbv iota beta; cbn [fst snd];
    (destruct (look l 4) as [[]|]; try reflexivity; destruct (allowValue _ _ s n); reflexivity).
  - destruct (ask_eq st 2 4 ltac:(lia) ltac:(lia) S) as (st4 & A4 & S4). exists st4, 4. split; [lia|]. split; [exact S4|]. destruct s as [|c s]; [reflexivity|]. destruct (pathValue (c :: s)) as [p| |]; cbn [bind]; try reflexivity. rewrite A4. cbv iota beta. cbn [fst snd].
    destruct (look l 4) as [[]|]; try reflexivity. destruct (allowValue _ _ _ _); reflexivity.
  - destruct (ask_eq st 2 4 ltac:(lia) ltac:(lia) S) as (st4 & A4 & S4). exists st4, 4. split; [lia|]. split; [exact S4|]. destruct s as [|c s]; [reflexivity|]. cbn [bind]. rewrite A4. cbv iota beta. cbn [fst snd].
    destruct (look l 4) as [[]|]; try reflexivity. destruct (allowValue _ _ _ _); reflexivity.
  - destruct (ask_eq st 2 4 ltac:(lia) ltac:(lia) S) as (st4 & A4 & S4). exists st4, 4. split; [lia|]. split; [exact S4|]. cbn [bind]. rewrite A4. cbv iota beta. cbn [fst snd].
    destruct (look l 4) as [[]|]; try reflexivity. destruct (allowValue _ _ _ _); reflexivity.
Qed.

Definition dependF (c : conf) (idx : nat) (set param : bool) : res (bool * str * option oval) :=
  match look l 1 with
  | Some (OValid dflt d vals) =>
      let* dv := confValue c d (if grouped rules d then idx else 0%nat) in
      let '(met, m) := depend dv vals first in
      if negb met && set && param then let* _ := confValue c d idx in Err EOther else Ok (met, m, dflt)
  | _ => Ok (true, first, None)
  end.
Definition defaultF (m : str) (sq : bool) : option (oval * str * Z) :=
  match look l 5 with
  | Some (ODefault DefDynamic) => Some (VStr bin, bin, 0)
  | Some (ODefault (DefAll x raw q)) => Some (x, raw, if sq then q else 0)
  | Some (ODefault (DefMap dl)) => match findMatch dl m with Some (x, raw) => Some (x, raw, 0) | None => None end
  | _ => None
  end.
Definition sqF : bool := match look l 2 with Some _ => negb (sequence o) | None => sequence o end.
Definition requiredF (r : rule) : bool := match look l 6 with Some _ => negb (rRequired r) | None => rRequired r end.
Definition finalF (r : rule) (v : pvalue) (m : str) (cv : cval) : res (cval * bool) :=
  let* cv :=
    (if (negb (cvSet cv) && negb (pvNegate v)) || help then
       match defaultF m sqF with
       | Some (x, raw, q) => Ok (if cvSet cv then cv else mkCval true (cvNegate cv) (cvReset cv) (cvSource cv) x (Some raw) q)
       | None => if help then Ok cv else if requiredF r then Err EOther else Ok cv
       end
     else Ok cv) in
  Ok (cv, match rGroup r with Some _ => match cvSource cv with SrcDefault => false | _ => true end | None => false end).
Definition resolveF (c : conf) (r : rule) (k : Z) (idx : nat) : res (cval * bool) :=
  let v := given t o k in
  let set := isSet t o k r in
  let* ok := dependF c idx set (pvParam v) in
  let '(met, m, dflt) := ok in
  if met then
    let* cv :=
      (if set then
         if betaError betaId t o r then Err EOther
         else let* y := setValueF (rType r) v sqF m l in Ok (mkCval true (pvNegate v) (pvReset v) (srcOf v) (fst (fst y)) (snd (fst y)) (snd y))
       else Ok (mkCval false (pvNegate v) (pvReset v) (if pvNegate v then srcOf v else SrcDefault) VZero None 0)) in
    finalF r v m cv
  else
    match dflt with
    | Some x => Ok (mkCval true false false SrcDefault x None 0, false)
    | None => Ok (mkCval false (pvNegate v) (pvReset v) SrcDefault VZero None 0, false)
    end.
Theorem resolve_eq c r k idx : resolve rules sequence optional cmd help bin betaId first t c o r k idx = resolveF c r k idx.
Proof.
  unfold resolve, resolveF. cbv zeta. destruct (ask_eq RStart 0 1 ltac:(lia) ltac:(lia) eq_refl) as (st1 & A1 & S1). rewrite A1. cbv iota beta.
  fold (dependF c idx (isSet t o k r) (pvParam (given t o k))).
  match goal with |- bind ?x _ = _ => replace x with (dependF c idx (isSet t o k r) (pvParam (given t o k))) by reflexivity end.
  destruct (dependF c idx (isSet t o k r) (pvParam (given t o k))) as [[[met m] dflt]| |]; cbn [bind]; try reflexivity.
  destruct (ask_eq st1 1 2 ltac:(lia) ltac:(lia) S1) as (st2 & A2 & S2). rewrite A2. cbv iota beta. replace (match look l 2 with Some _ => negb (sequence o) | None => sequence o end) with sqF by reflexivity.
  destruct met; [|reflexivity].
  assert (REST : forall cv st k', 2 <= k' <= 4 -> stAt (optional o) cmd st k' ->
    (let* cv0 := (if (negb (cvSet cv) && negb (pvNegate (given t o k))) || help then
       let '(st0, a) := ask (optional o) cmd st 5 in
       match match a with Some (ODefault DefDynamic) => Some (VStr bin, bin, 0) | Some (ODefault (DefAll x raw q)) => Some (x, raw, if sqF then q else 0) | Some (ODefault (DefMap l0)) => match findMatch l0 m with Some (x, raw) => Some (x, raw, 0) | None => None end | _ => None end with
       | Some (x, raw, q) => Ok (if cvSet cv then cv else mkCval true (cvNegate cv) (cvReset cv) (cvSource cv) x (Some raw) q)
       | None => if help then Ok cv else let '(_, a0) := ask (optional o) cmd st0 6 in if match a0 with Some _ => negb (rRequired r) | None => rRequired r end then Err EOther else Ok cv
       end else Ok cv) in Ok (cv0, match rGroup r with Some _ => match cvSource cv0 with SrcDefault => false | _ => true end | None => false end)) = finalF r (given t o k) m cv).
  { intros cv st k' K S. unfold finalF. destruct (_ || help); [|reflexivity]. destruct (ask_eq st k' 5 ltac:(lia) ltac:(lia) S) as (st5 & A5 & S5). rewrite A5. cbv iota beta.
    match goal with |- bind (match ?x with _ => _ end) _ = _ => replace x with (defaultF m sqF) by reflexivity end. destruct (defaultF m sqF) as [[[x raw] q]|]; [reflexivity|].
    destruct help; [reflexivity|]. destruct (ask_eq st5 5 6 ltac:(lia) ltac:(lia) S5) as (st6 & A6 & S6). rewrite A6. cbv iota beta. reflexivity. }
  destruct (isSet t o k r).
  - destruct (betaError betaId t o r); [reflexivity|]. destruct (setValue_eq r (given t o k) sqF m st2 S2) as (st' & k' & K & S & E). rewrite E. destruct (setValueF (rType r) (given t o k) sqF m l) as [[[x d] q]| |]; cbn [bind]; try reflexivity.
    cbn [fst snd]. apply (REST _ st' k' K S).
  - cbn [bind]. apply (REST _ st2 2 ltac:(lia) S2).
Qed.
End Eq.

(** * Values *)
Lemma int_spec ty s n : isNum ty = true -> (intValue ty s = Ok n <-> numberIs ty s n).
Proof.
  intros T. unfold intValue. assert (B : 2 <= 10 <= 16) by lia. destruct ty; try discriminate T; cbn [numberIs].
  - destruct (cvtZToInt64 10 s) as [x| |] eqn:E.
    + rewrite <- (cvtZToInt64_spec 10 B s n). rewrite E. split; intros [= ->]; reflexivity.
    + split; [discriminate|]. intros H. apply (cvtZToInt64_spec 10 B) in H. congruence.
    + split; [discriminate|]. intros H. apply (cvtZToInt64_spec 10 B) in H. congruence.
  - change (2 ^ 63) with two63. destruct (parseSize s) as [x| |] eqn:E.
    + rewrite <- parseSize_spec. rewrite E. split; intros [= ->]; reflexivity.
    + split; [discriminate|]. intros H. apply parseSize_spec in H. congruence.
    + split; [discriminate|]. intros H. apply parseSize_spec in H. congruence.
  - assert (C : parseTime s = Ok n <-> exists num a m, timeText s num a m /\ (length num <= 64)%nat /\ n = a * m /\ - 2 ^ 63 <= n < 2 ^ 63).
    { change (- 2 ^ 63) with (-9223372036854775808). change (2 ^ 63) with 9223372036854775808. split.
      - intros H. destruct (timeUnitOf s) as [q m] eqn:E. destruct (unit_sound s q m E) as (num & us & u & ES & LQ & L & U). pose proof H as H'. rewrite parse_time, E in H'. cbv iota beta in H'.
        assert (F : firstn (length s - q) s = num) by (rewrite ES, <- LQ, app_length; replace (length num + length us - length us)%nat with (length num + 0)%nat by lia; rewrite firstn_app_2; apply app_nil_r).
        rewrite F in H'. unfold timeOf in H'. destruct num as [|c r] eqn:EN; [discriminate|]. destruct (64 <? _)%nat eqn:LN; [discriminate|]. destruct (cvtZToInt64 10 (c :: r)) as [a| |] eqn:C; cbn [bind] in H'; try discriminate.
        apply (cvtZToInt64_spec 10 B) in C. destruct C as [C1 _].
        assert (TT : timeText s (c :: r) a m) by (exists u, us; repeat split; assumption). exists (c :: r), a, m. split; [exact TT|]. split; [apply Nat.ltb_ge; exact LN|]. rewrite (time_text s _ a m TT) in H. unfold timeValue, int64Min, int64Max in H. rewrite LN in H.
        destruct (_ && _) eqn:Q1; [discriminate|]. destruct (_ || _) eqn:Q2; [discriminate|]. injection H as <-. split; [reflexivity|].
        apply Bool.orb_false_iff in Q2. destruct Q2 as [Q2 Q3]. apply Z.ltb_ge in Q2, Q3. apply Bool.andb_false_iff in Q1. destruct Q1 as [Q1|Q1]; [apply Z.ltb_ge in Q1; lia|apply Z.leb_gt in Q1; lia].
      - intros (num & a & m & TT & L & -> & R). rewrite (time_text s num a m TT). unfold timeValue, int64Min, int64Max. assert (P : 1 <= m) by (destruct TT as (u & us & _ & _ & _ & U); apply timeUnit_pos in U; lia).
        replace (64 <? length num)%nat with false by (symmetry; apply Nat.ltb_ge; exact L). replace (a * m <? -9223372036854775808) with false by (symmetry; apply Z.ltb_ge; lia). cbn [andb].
        replace (a <? -9223372036854775808) with false by (symmetry; apply Z.ltb_ge; nia). rewrite Bool.orb_false_r. replace (9223372036854775807 <? a * m) with false by (symmetry; apply Z.ltb_ge; lia). reflexivity. }
    rewrite <- C. destruct (parseTime s) as [x| |]; split; try discriminate; intros [= ->]; reflexivity.
Qed.
Lemma findMatch_spec {A} (l : list (str * A)) m : match findMatch l m with
  | Some a => exists p q, l = p ++ (m, a) :: q /\ forall x, In x p -> fst x <> m
  | None => forall x, In x l -> fst x <> m
  end.
Proof.
  induction l as [|[s a] l IH]; cbn [findMatch]; [intros x []|]. destruct (strEqb s m) eqn:E.
  - apply strEqb_eq in E. subst s. exists [], l. split; [reflexivity|intros x []].
  - assert (N : s <> m) by (intros ->; rewrite strEqb_refl in E; discriminate). destruct (findMatch l m) as [b|].
    + destruct IH as (p & q & -> & F). exists ((s, a) :: p), q. split; [reflexivity|]. intros x [<-|H]; [exact N|apply F; exact H].
    + intros x [<-|H]; [exact N|apply IH; exact H].
Qed.
Lemma findMatch_intro {A} (p q : list (str * A)) m a : (forall x, In x p -> fst x <> m) -> findMatch (p ++ (m, a) :: q) m = Some a.
Proof.
  induction p as [|[s b] p IH]; intros H; cbn [app findMatch]; [rewrite strEqb_refl; reflexivity|]. destruct (strEqb s m) eqn:E; [exfalso; apply (H (s, b) (or_introl eq_refl)); apply strEqb_eq; exact E|]. apply IH. intros x Hx. apply H. right. exact Hx.
Qed.
Lemma limits_spec l m n : ordered l -> (limitIs l m n <-> match limits l m with Some (lo, hi) => lo <= n <= hi | None => True end).
Proof.
  intros O. unfold limitIs, limits. split.
  - intros [H1 H2]. destruct (look l 3) as [[]|] eqn:E; try exact I. apply look_some in E. destruct E as [E _]. destruct r as [lo hi|rs]; [apply H1; exact E|]. pose proof (findMatch_spec rs m) as F. destruct (findMatch rs m) as [[lo hi]|]; [|exact I]. destruct F as (p & q & F1 & F2). exact (H2 rs p lo hi q E F1 F2).
  - intros H. split.
    + intros lo hi I. pose proof (look_in l _ O I) as E. cbn [kind] in E. rewrite E in H. exact H.
    + intros rs a lo hi b I -> F. pose proof (look_in l _ O I) as E. cbn [kind] in E. rewrite E, (findMatch_intro a b m (lo, hi) F) in H. exact H.
Qed.

Lemma hasDouble_spec s : hasDoubleSlash s = false <-> forall a b, s <> a ++ 47 :: 47 :: b.
Proof.
  induction s as [|x s IH]; [split; [intros _ [|y a] b; discriminate|reflexivity]|]. cbn [hasDoubleSlash]. destruct s as [|y s].
  - split; [intros _ [|z [|w a]] b; discriminate|reflexivity].
  - rewrite Bool.orb_false_iff, IH, Bool.andb_false_iff, !Z.eqb_neq. split.
    + intros [H1 H2] [|z a] b; [cbn; intros [= -> -> ->]; lia|]. cbn. intros [= _ E]. exact (H2 a b E).
    + intros H. split; [|intros a b E; apply (H (x :: a) b); cbn; f_equal; exact E]. destruct (Z.eq_dec x 47) as [->|N]; [|left; exact N]. right. intros ->. exact (H [] s eq_refl).
Qed.
Lemma path_spec s p : pathValue s = Ok p <-> pathIs s p.
Proof.
  unfold pathValue, pathIs. split.
  - destruct s as [|c r]; [discriminate|]. destruct (Z.eqb_spec c 47) as [->|N]; cbn [negb]; [|discriminate]. destruct (hasDoubleSlash (47 :: r)) eqn:D; [discriminate|]. intros E. split; [exists r; reflexivity|]. split; [apply hasDouble_spec; exact D|].
    set (s := 47 :: r) in *. assert (NE : s <> []) by discriminate. clearbody s. destruct (Z.eqb_spec (last s 0) 47) as [L|L]; cbn [andb] in E.
    + destruct (Nat.eqb_spec (length s) 1) as [L1|L1]; cbn [negb] in E.
      * injection E as <-. left. split; [reflexivity|]. left. destruct s as [|a [|b s]]; [congruence| |cbn in L1; lia]. cbn in L. subst a. reflexivity.
      * injection E as <-. right. pose proof (app_removelast_last 0 NE) as Q. rewrite L in Q. split; [exact Q|]. intros Q2. rewrite Q2 in Q. rewrite Q in L1. cbn in L1. lia.
    + injection E as <-. left. split; [reflexivity|]. right. intros a ->. rewrite last_last in L. congruence.
  - intros ((r & E) & D & C). apply hasDouble_spec in D. destruct s as [|c s0]; [discriminate|]. injection E as -> ->. change (47 =? 47) with true. cbn [negb]. rewrite D. f_equal. set (s := 47 :: r) in *. destruct C as [[-> [C|C]]|[C N]].
    + rewrite C. reflexivity.
    + destruct (Z.eqb_spec (last p 0) 47) as [L|L]; [|reflexivity]. exfalso. assert (NE : p <> []) by (intros ->; discriminate). apply (C (removelast p)). rewrite <- L. apply app_removelast_last. exact NE.
    + rewrite C, last_last, removelast_last, app_length. cbn [length]. replace (length p + 1 =? 1)%nat with false by (symmetry; apply Nat.eqb_neq; destruct p; [congruence|cbn; lia]). reflexivity.
Qed.

Lemma splitEqual_spec s : (exists k v, s = k ++ 61 :: v /\ ~ In 61 k /\ splitEqual s = (k, Some v)) \/ (~ In 61 s /\ splitEqual s = (s, None)).
Proof.
  induction s as [|c s IH]; cbn [splitEqual]; [right; split; [intros []|reflexivity]|]. destruct (Z.eqb_spec c 61) as [->|N]; [left; exists [], s; split; [reflexivity|split; [intros []|reflexivity]]|].
  destruct IH as [(k & v & -> & H & E)|[H E]]; rewrite E.
  - left. exists (c :: k), v. split; [reflexivity|]. split; [intros [Q|Q]; [congruence|exact (H Q)]|reflexivity].
  - right. split; [intros [Q|Q]; [congruence|exact (H Q)]|reflexivity].
Qed.
Lemma split_unique k : forall v k' v', ~ In 61 k -> ~ In 61 k' -> k ++ 61 :: v = k' ++ 61 :: v' -> k = k' /\ v = v'.
Proof.
  induction k as [|c k IH]; intros v [|c' k'] v' H H' E; cbn in E.
  - injection E as ->. auto.
  - injection E as <- _. exfalso. apply H'. left. reflexivity.
  - injection E as -> _. exfalso. apply H. left. reflexivity.
  - injection E as -> E. destruct (IH v k' v' (fun Q => H (or_intror Q)) (fun Q => H' (or_intror Q)) E) as [-> ->]. auto.
Qed.
Lemma put_spec h k v : NoDup (map fst h) -> NoDup (map fst (hashPut h k v)) /\ (forall k' v', In (k', v') (hashPut h k v) <-> (k' = k /\ v' = v) \/ (k' <> k /\ In (k', v') h)).
Proof.
  induction h as [|[a b] h IH]; intros N; cbn [hashPut].
  - split; [constructor; [intros []|constructor]|]. intros k' v'. cbn [In]. split; [intros [E|[]]; injection E as <- <-; left; auto|intros [[-> ->]|[_ []]]; left; reflexivity].
  - cbn [map fst] in N. inversion N as [|x y N1 N2]; subst. destruct (strEqb a k) eqn:E.
    + apply strEqb_eq in E. subst a. split; [exact N|]. intros k' v'. cbn [In]. split.
      * intros [Q|Q]; [injection Q as <- <-; left; auto|]. right. split; [intros ->; apply N1; apply (in_map fst) in Q; exact Q|right; exact Q].
      * intros [[-> ->]|[Q1 [Q2|Q2]]]; [left; reflexivity|congruence|right; exact Q2].
    + assert (NE : a <> k) by (intros ->; rewrite strEqb_refl in E; discriminate). destruct (IH N2) as [I1 I2]. split.
      * cbn [map fst]. constructor; [|exact I1]. intros Q. apply in_map_iff in Q. destruct Q as ([x y] & Q1 & Q2). cbn in Q1. subst x. apply I2 in Q2. destruct Q2 as [[Q2 _]|[_ Q2]]; [congruence|]. apply N1. apply (in_map fst) in Q2. exact Q2.
      * intros k' v'. cbn [In]. rewrite I2. split.
        -- intros [Q|[Q|[Q1 Q2]]]; [injection Q as <- <-; right; split; [exact NE|left; reflexivity]|left; exact Q|right; split; [exact Q1|right; exact Q2]].
        -- intros [Q|[Q1 [Q2|Q2]]]; [right; left; exact Q|left; exact Q2|right; right; auto].
Qed.
Lemma hashValue_snoc l : forall h s, hashValue (l ++ [s]) h = let* h' := hashValue l h in match splitEqual s with (k, Some v) => Ok (hashPut h' k v) | (_, None) => Err EOther end.
Proof.
  induction l as [|p l IH]; intros h s; cbn [app hashValue bind]; [destruct (splitEqual s) as [k [v|]]; reflexivity|]. destruct (splitEqual p) as [k [v|]]; [apply IH|reflexivity].
Qed.
Lemma hash_spec vals h : hashValue vals [] = Ok h -> hashIs vals h.
Proof.
  revert h. induction vals as [|s vals IH] using rev_ind; intros h H.
  - injection H as <-. split; [constructor|]. split; [intros s []|]. intros k v. split; [intros []|]. intros (_ & [|x a] & b & E & _); discriminate.
  - rewrite hashValue_snoc in H. destruct (hashValue vals []) as [h'| |]; cbn [bind] in H; try discriminate. destruct (IH h' eq_refl) as (I1 & I2 & I3). destruct (splitEqual_spec s) as [(k0 & v0 & -> & K0 & E)|[K0 E]]; rewrite E in H; [|discriminate]. injection H as <-.
    destruct (put_spec h' k0 v0 I1) as [P1 P2]. split; [exact P1|]. split.
    + intros x Hx. apply in_app_or in Hx. destruct Hx as [Hx|[<-|[]]]; [apply I2; exact Hx|apply in_or_app; right; left; reflexivity].
    + intros k v. rewrite P2. split.
      * intros [[-> ->]|[Q1 Q2]]; [split; [exact K0|]; exists vals, []; split; [reflexivity|intros w []]|]. apply I3 in Q2. destruct Q2 as (K & a & b & -> & F). split; [exact K|]. exists a, (b ++ [k0 ++ 61 :: v0]). split; [rewrite <- app_assoc; reflexivity|].
        intros w Hw. apply in_app_or in Hw. destruct Hw as [Hw|[Hw|[]]]; [exact (F w Hw)|]. destruct (split_unique k0 v0 k w K0 K Hw). congruence.
      * intros (K & a & b & E2 & F). destruct b as [|y b] using rev_ind.
        -- apply app_inj_tail in E2. destruct E2 as [_ E2]. destruct (split_unique k0 v0 k v K0 K E2) as [-> ->]. left. auto.
        -- clear IHb. rewrite app_comm_cons, app_assoc in E2. apply app_inj_tail in E2. destruct E2 as [E2 <-]. right. split; [intros ->; apply (F v0); apply in_or_app; right; left; reflexivity|]. apply I3. split; [exact K|]. exists a, b. split; [exact E2|]. intros w Hw. apply (F w). apply in_or_app. left. exact Hw.
Qed.
Lemma hash_exists vals h : (forall s, In s vals -> In 61 s) -> exists h', hashValue vals h = Ok h'.
Proof.
  revert h. induction vals as [|s vals IH]; intros h H; [exists h; reflexivity|]. cbn [hashValue]. destruct (splitEqual_spec s) as [(k & v & _ & _ & ->)|[N _]]; [apply IH; intros x Hx; apply H; right; exact Hx|]. exfalso. apply N. apply H. left. reflexivity.
Qed.

Lemma allowSearch_spec (sid : bool) disp n : forall (l : list (allowed * bool)) q, (forall x : allowed * bool, In x l -> if sid then exists s, fst x = AllowText s else exists z, fst x = AllowInt z) ->
  let x := if sid then AllowText disp else AllowInt n in
  match allowSearch sid l disp n q with
  | Ok (Some r) => exists i, r = q + Z.of_nat i /\ allowedAt l x i
  | Ok None => forall m, ~ In (x, m) l
  | Err e => e = EOptionInvalidValue /\ exists i, nth_error l i = Some (x, true) /\ forall j m, (j < i)%nat -> nth_error l j <> Some (x, m)
  | UB => False
  end.
Proof.
  intros l. cbv zeta. set (x := if sid then AllowText disp else AllowInt n). induction l as [|[a mark] l IH]; intros q H; cbn [allowSearch]; [intros m []|].
  set (f := match a with AllowText s => sid && strEqb s disp | AllowInt m => negb sid && (m =? n) end).
  assert (F : f = true <-> a = x).
  { unfold f, x. specialize (H (a, mark) (or_introl eq_refl)). cbn in H. destruct sid; destruct H as (y & ->); cbn [andb negb].
    - rewrite strEqb_eq. split; [intros ->; reflexivity|intros [= ->]; reflexivity].
    - rewrite Z.eqb_eq. split; [intros ->; reflexivity|intros [= ->]; reflexivity]. }
  destruct f.
  - assert (a = x) as -> by (apply F; reflexivity). destruct mark; [split; [reflexivity|]; exists 0%nat; split; [reflexivity|intros j m Hj; lia]|]. exists 0%nat. split; [lia|]. split; [reflexivity|intros j m Hj; lia].
  - assert (NX : a <> x) by (intros E; apply F in E; discriminate). specialize (IH (q + 1) (fun y Hy => H y (or_intror Hy))). destruct (allowSearch sid l disp n (q + 1)) as [[r|]|e|].
    + destruct IH as (i & -> & A1 & A2). exists (S i). split; [lia|]. split; [exact A1|]. intros [|j] m Hj; [cbn; congruence|]. apply A2. lia.
    + intros m [E|E]; [congruence|exact (IH m E)].
    + destruct IH as (-> & i & A1 & A2). split; [reflexivity|]. exists (S i). split; [exact A1|]. intros [|j] m Hj; [cbn; congruence|]. apply A2. lia.
    + exact IH.
Qed.
Lemma allowValue_spec (sid : bool) l disp n q : (forall x : allowed * bool, In x l -> if sid then exists s, fst x = AllowText s else exists z, fst x = AllowInt z) ->
  (allowValue sid l disp n = Ok q <-> exists i, q = Z.of_nat i /\ allowedAt l (if sid then AllowText disp else AllowInt n) i).
Proof.
  intros H. unfold allowValue. pose proof (allowSearch_spec sid disp n l 0 H) as A. cbv zeta in A. set (x := if sid then AllowText disp else AllowInt n) in *. destruct (allowSearch sid l disp n 0) as [[r|]|e|]; cbn [bind].
  - destruct A as (i & -> & A). split; [intros [= <-]; exists i; split; [lia|exact A]|]. intros (j & -> & B). f_equal. destruct A as [A1 A2], B as [B1 B2]. destruct (Nat.lt_trichotomy i j) as [L|[->|L]]; [exfalso; exact (B2 i _ L A1)|lia|exfalso; exact (A2 j _ L B1)].
  - split; [destruct (existsb snd l); discriminate|]. intros (j & _ & B1 & _). exfalso. apply (A false). exact (nth_error_In _ _ B1).
  - destruct A as (-> & i & A1 & A2). split; [discriminate|]. intros (j & _ & B1 & B2). exfalso. destruct (Nat.lt_trichotomy i j) as [L|[->|L]]; [exact (B2 i _ L A1)|congruence|exact (A2 j _ L B1)].
  - destruct A.
Qed.
Lemma allow_spec l x (sid : bool) disp n : ordered l -> x = (if sid then AllowText disp else AllowInt n) ->
  (forall al, In (OAllow al) l -> forall y, In y al -> if sid then exists s, fst y = AllowText s else exists z, fst y = AllowInt z) ->
  forall q, allowIs l x q <-> match look l 4 with Some (OAllow al) => allowValue sid al disp n = Ok q | _ => q = 0 end.
Proof.
  intros O -> T q. unfold allowIs. destruct (look l 4) as [r|] eqn:E.
  - apply look_some in E. destruct E as [E1 E2]. destruct r; try discriminate E2. rewrite (allowValue_spec sid l0 disp n q (T l0 E1)). split.
    + intros [(al & i & I & A & ->)|[N _]]; [|exfalso; exact (N l0 E1)]. pose proof (look_in l _ O I) as Q. pose proof (look_in l _ O E1) as Q'. cbn [kind] in Q, Q'. rewrite Q in Q'. injection Q' as <-. exists i. auto.
    + intros (i & -> & A). left. exists l0, i. auto.
  - split; [intros [(al & i & I & _)|[_ ->]]; [exfalso; exact (look_none l 4 E _ I eq_refl)|reflexivity]|]. intros ->. right. split; [|reflexivity]. intros al I. exact (look_none l 4 E _ I eq_refl).
Qed.
