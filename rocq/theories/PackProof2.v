From Verif Require Import Base ConvertModel ConvertSpec ConvertProof PackModel PackSpec PackProof.
Open Scope Z_scope.

(** * The bytes of fields *)
Definition vRaw (v : val) : Z :=
  match v with
  | VS (SBool b) => if b then 1 else 0
  | VS (SI32 x) => zigZag32 x
  | VS (SI64 x) | VS (STime x) => zigZag64 x
  | VS (SU32 x) | VS (SU64 x) | VS (SStrId x) | VS (SMode x) => x
  | VS (SStr s) | VS (SBin s) => if nonEmpty s then 1 else 0
  | VS (SPack _) | VC _ _ => 0
  end.
(** Data read after the tag (and size). *)
Definition vData (v : val) : list Z := match v with VS (SStr s) | VS (SBin s) | VS (SPack s) => s | _ => [] end.
Definition vSized (v : val) : bool := match v with VS (SStr s) | VS (SBin s) => nonEmpty s | VS (SPack _) => true | _ => false end.
Definition vOk (v : val) : Prop := match v with VS s => scalarOk s | VC t _ => t = 1 \/ t = 5 end.

Inductive enc : Z -> list (Z * val) -> list Z -> Prop :=
| e_nil l : enc l [] []
| e_cons l i v fs tb sz body b : l < i <= idMax -> vOk v -> tagBytes (vType v) (i - l - 1) (vRaw v) = Ok tb ->
    (if vSized v then toVarInt (Z.of_nat (length (vData v))) else Ok []) = Ok sz -> inner v body -> enc i fs b ->
    enc l ((i, v) :: fs) (tb ++ sz ++ body ++ b)
with inner : val -> list Z -> Prop :=
| i_s s : inner (VS s) (vData (VS s))
| i_c t sub sb : enc 0 sub sb -> inner (VC t sub) (sb ++ [0]).

Lemma vType_known v : vOk v -> typeKnown (vType v) = true.
Proof. destruct v as [[]|t]; cbn; try reflexivity. now intros [->| ->]. Qed.
Lemma vRaw_fits v : vOk v -> valueFits (vType v) (vRaw v).
Proof.
  destruct v as [s|t sub]; [destruct s|]; cbn [vOk vType vRaw kindOf kindType scalarOk]; unfold valueFits, two64; cbn; intros H.
  - destruct b; auto.
  - pose proof (zz_range (2^31) v H) as R. rewrite zigZag32_spec by exact H. lia.
  - pose proof (zz_range (2^63) v H) as R. rewrite zigZag64_spec by exact H. lia.
  - lia.
  - lia.
  - lia.
  - pose proof (zz_range (2^63) v H) as R. rewrite zigZag64_spec by exact H. lia.
  - lia.
  - destruct s; auto.
  - destruct s; auto.
  - reflexivity.
  - destruct H as [->| ->]; reflexivity.
Qed.
Lemma vSized_type v : vOk v -> typeSize (vType v) && ((0 <? vRaw v) || negb (typeSingle (vType v))) = vSized v.
Proof. destruct v as [[]|t]; cbn; try reflexivity; try (destruct s; reflexivity). now intros [->| ->]. Qed.

(** * Writing *)
Lemma eqbList_spec a : forall b, eqbList a b = true <-> a = b.
Proof.
  unfold eqbList. induction a as [|x a IH]; intros [|y b]; cbn; (split; [|try discriminate]); auto; try discriminate.
  - intros H. apply andb_prop in H. destruct H as (H1 & H2). apply andb_prop in H2. destruct H2 as (H2 & H3). apply Z.eqb_eq in H2. subst y. f_equal. apply IH. now rewrite H1, H3.
  - intros [= <- <-]. rewrite Z.eqb_refl. apply (proj2 (IH a) eq_refl).
Qed.
Lemma scalarEqb_spec a b : scalarEqb a b = true <-> a = b.
Proof.
  destruct a, b; cbn; try (split; intros; discriminate).
  - rewrite eqb_true_iff. split; congruence.
  - rewrite Z.eqb_eq. split; congruence.
  - rewrite Z.eqb_eq. split; congruence.
  - rewrite Z.eqb_eq. split; congruence.
  - rewrite Z.eqb_eq. split; congruence.
  - rewrite Z.eqb_eq. split; congruence.
  - rewrite Z.eqb_eq. split; congruence.
  - rewrite Z.eqb_eq. split; congruence.
  - rewrite eqbList_spec. split; congruence.
  - rewrite eqbList_spec. split; congruence.
  - rewrite eqbList_spec. split; congruence.
Qed.
Lemma optEqb_spec a b : optEqb a b = true <-> a = b.
Proof. destruct a, b; cbn; try (split; congruence). rewrite scalarEqb_spec. split; congruence. Qed.

Lemma writeTag_spec buf ty l n stk t id i v tb : 0 <= l -> 0 <= n -> i = (if id =? 0 then l + n + 1 else id) -> l < i <= idMax ->
  tagBytes t (i - l - 1) v = Ok tb -> pckWriteTag (mkPWrite buf (mkWFrame ty l (n mod two32)) stk) t id v = Ok (mkPWrite (buf ++ tb) (mkWFrame ty i 0) stk).
Proof.
  intros Hl Hn Hi Hr Ht. unfold pckWriteTag. cbn [pwTop wfLast wfNull wfType pwBuf pwStack]. unfold idMax, two32 in *.
  assert (E : (if id =? 0 then (l + n mod 4294967296 + 1) mod 4294967296 else id) = i).
  { destruct (id =? 0); [|auto]. rewrite (Z.mod_small n) by lia. rewrite Z.mod_small by lia. auto. }
  rewrite E. assert (G : negb (id =? 0) && (id <=? l) = false) by (destruct (Z.eqb_spec id 0); [reflexivity|cbn; apply Z.leb_gt; lia]).
  rewrite G. rewrite (Z.mod_small (i - l - 1)) by lia. rewrite Ht. reflexivity.
Qed.

Lemma writeScalar_spec buf ty l n stk id i dw d s : 0 <= l -> 0 <= n -> i = (if id =? 0 then l + n + 1 else id) -> l < i <= idMax -> scalarOk s -> (dw = true \/ d <> Some s) ->
  exists tb sz, tagBytes (vType (VS s)) (i - l - 1) (vRaw (VS s)) = Ok tb /\ (if vSized (VS s) then toVarInt (Z.of_nat (length (vData (VS s)))) else Ok []) = Ok sz /\
    pckWriteScalar (mkPWrite buf (mkWFrame ty l (n mod two32)) stk) id dw d (Some s) = Ok (mkPWrite (buf ++ tb ++ sz ++ vData (VS s)) (mkWFrame ty i 0) stk).
Proof.
  intros Hl Hn Hi Hr Hs Hd. destruct (tag_read (vType (VS s)) (i - l - 1) (vRaw (VS s)) (vType_known (VS s) Hs) (vRaw_fits (VS s) Hs)) as (tb & Et & _); [unfold idMax, two32 in *; lia|].
  pose proof (fun v => writeTag_spec buf ty l n stk (vType (VS s)) id i v tb Hl Hn Hi Hr) as W.
  assert (Sz : exists sz, (if vSized (VS s) then toVarInt (Z.of_nat (length (vData (VS s)))) else Ok []) = Ok sz).
  { destruct (vSized (VS s)) eqn:V; [|eauto]. destruct (roundtrip (Z.of_nat (length (vData (VS s))))) as (z & E & _); [|eauto]. unfold isU64, two64. destruct s; try discriminate V; cbn [scalarOk vData] in *; lia. }
  destruct Sz as (sz & Es). exists tb, sz. split; [exact Et|]. split; [exact Es|]. unfold pckWriteScalar.
  assert (G : negb dw && optEqb (Some s) d = false). { destruct Hd as [->|Hd]; [reflexivity|]. destruct (optEqb (Some s) d) eqn:Q; [apply optEqb_spec in Q; congruence|apply andb_false_r]. }
  rewrite G. specialize (W _ Et). destruct s; cbn [vType kindOf kindType vRaw vSized vData] in *; try (injection Es as <-; rewrite W; now rewrite !app_nil_r).
  - rewrite W. cbn [bind]. destruct (nonEmpty s) eqn:N.
    + unfold putSized. rewrite Es. cbn [bind]. unfold wPut. cbn. now rewrite <- !app_assoc.
    + destruct s; [|discriminate]. injection Es as <-. now rewrite !app_nil_r.
  - rewrite W. cbn [bind]. destruct (nonEmpty s) eqn:N.
    + unfold putSized. rewrite Es. cbn [bind]. unfold wPut. cbn. now rewrite <- !app_assoc.
    + destruct s; [|discriminate]. injection Es as <-. now rewrite !app_nil_r.
  - rewrite W. cbn [bind]. unfold putSized. rewrite Es. cbn [bind]. unfold wPut. cbn. now rewrite <- !app_assoc.
Qed.

Lemma writeNull_spec buf ty l n stk : 0 <= n -> pckWriteNull (mkPWrite buf (mkWFrame ty l (n mod two32)) stk) = mkPWrite buf (mkWFrame ty l ((n + 1) mod two32)) stk.
Proof. intros Hn. unfold pckWriteNull. cbn. do 2 f_equal. unfold two32. now rewrite Zplus_mod_idemp_l. Qed.

Lemma go_runWs l : forall w, (fix go (w : pwrite) (l : list wop) {struct l} : res pwrite := match l with [] => Ok w | o :: r => let* w' := runW w o in go w' r end) w l = runWs w l.
Proof. induction l as [|o l IH]; intros w; [reflexivity|]. cbn. destruct (runW w o); cbn; [apply IH|reflexivity..]. Qed.

Lemma writes_run l n ops fs : writes l n ops fs -> 0 <= l -> 0 <= n -> forall buf ty stk, exists b l2 n2,
  runWs (mkPWrite buf (mkWFrame ty l (n mod two32)) stk) ops = Ok (mkPWrite (buf ++ b) (mkWFrame ty l2 n2) stk) /\ enc l fs b.
Proof.
  induction 1 as [l n|l n ops fs H IH|l n id d ops fs H IH|l n id i dw d s ops fs Hd Hi Hr Hs H IH|l n t id i sub subfs ops fs Ht Hi Hr Hs IHs H IH]; intros Hl Hn buf ty stk.
  - exists [], l, (n mod two32). cbn. rewrite app_nil_r. split; [reflexivity|constructor].
  - cbn [runWs runW bind]. rewrite writeNull_spec by lia. apply IH; lia.
  - cbn [runWs runW]. unfold pckWriteScalar. rewrite (proj2 (optEqb_spec d d) eq_refl). cbn [negb andb bind]. rewrite writeNull_spec by lia. apply IH; lia.
  - destruct (writeScalar_spec buf ty l n stk id i dw d s Hl Hn Hi Hr Hs Hd) as (tb & sz & E1 & E2 & E3). cbn [runWs runW]. rewrite E3. cbn [bind].
    change 0 with (0 mod two32) at 1. destruct (IH ltac:(lia) ltac:(lia) (buf ++ tb ++ sz ++ vData (VS s)) ty stk) as (b & l2 & n2 & E & En). rewrite E.
    exists (tb ++ sz ++ vData (VS s) ++ b), l2, n2. split; [now rewrite <- !app_assoc|]. econstructor; eauto. constructor.
  - destruct (tag_read t (i - l - 1) 0) as (tb & Et & _); [destruct Ht as [->| ->]; reflexivity|destruct Ht as [->| ->]; reflexivity|unfold idMax, two32 in *; lia|].
    cbn [runWs runW]. unfold pckWriteBegin. rewrite (writeTag_spec buf ty l n stk t id i 0 tb Hl Hn Hi Hr Et). cbn [bind pwBuf pwTop pwStack].
    change (mkWFrame t 0 0) with (mkWFrame t 0 (0 mod two32)). destruct (IHs ltac:(lia) ltac:(lia) (buf ++ tb) t (mkWFrame ty i 0 :: stk)) as (sb & l3 & n3 & E3 & En3). rewrite go_runWs, E3. cbn [bind].
    unfold pckWriteEndCont. cbn [pwStack pwTop wfType pwBuf]. rewrite Z.eqb_refl. cbn [bind]. change (mkWFrame ty i 0) with (mkWFrame ty i (0 mod two32)).
    destruct (IH ltac:(lia) ltac:(lia) (((buf ++ tb) ++ sb) ++ [0]) ty stk) as (b & l2 & n2 & E & En). rewrite E.
    exists (tb ++ [] ++ (sb ++ [0]) ++ b), l2, n2. split; [now rewrite <- !app_assoc|]. econstructor; eauto. now constructor.
Qed.
Lemma packWrite_spec ops fs : writes 0 0 ops fs -> exists b, packWrite ops = Ok (b ++ [0]) /\ enc 0 fs b.
Proof.
  intros H. destruct (writes_run _ _ _ _ H ltac:(lia) ltac:(lia) [] tObj []) as (b & l2 & n2 & E & En). exists b. split; [|exact En]. unfold packWrite, pckWriteNew. change (mkWFrame tObj 0 0) with (mkWFrame tObj 0 (0 mod two32)). rewrite E. reflexivity.
Qed.

(** * Reading *)
Lemma enc_gt l fs b : enc l fs b -> forall j v, In (j, v) fs -> l < j <= idMax.
Proof. revert l b. induction fs as [|[i v0] fs IH]; intros l b H j v Hj; [destruct Hj|]. inversion H; subst. destruct Hj as [[= -> ->]|Hj]; [lia|]. specialize (IH _ _ H10 _ _ Hj). lia. Qed.

(** State of the reader in the top container with fields [fs]: [l] is the last id asked for, [outer] the bytes after the container. *)
Inductive at_ (fs : list (Z * val)) (outer : list Z) (l : Z) (r : pread) : Prop :=
| at_tag pre rest b : fs = pre ++ rest -> (forall j v, In (j, v) pre -> j <= l) -> enc l rest b -> prBuf r = b ++ 0 :: outer -> prId r = 0 -> rLast r = l -> 0 <= l -> at_ fs outer l r
| at_field pre i v rest body b : fs = pre ++ (i, v) :: rest -> (forall j v, In (j, v) pre -> j <= l) -> l < i <= idMax -> vOk v -> inner v body -> enc i rest b ->
    prBuf r = body ++ b ++ 0 :: outer -> prId r = i -> prType r = vType v -> prValue r = vRaw v -> prSize r = Z.of_nat (length (vData v)) -> rLast r = l -> 0 <= l -> at_ fs outer l r
| at_end : (forall j v, In (j, v) fs -> j <= l) -> prBuf r = outer -> prId r = uintMax -> rLast r = l -> 0 <= l -> at_ fs outer l r.

Lemma tagNext_end r b : prBuf r = 0 :: b -> pckReadTagNext r = Ok (mkPRead b uintMax (prType r) (prValue r) (prSize r) (prTop r) (prStack r)).
Proof. intros H. unfold pckReadTagNext. now rewrite H. Qed.
Lemma vSized_data v : vSized v = false -> vData v = [].
Proof. destruct v as [[]|]; cbn; try reflexivity; try discriminate; now destruct s. Qed.
Lemma tagNext_field r l i v tb sz body rest : 0 <= l < i -> i <= idMax -> vOk v -> tagBytes (vType v) (i - l - 1) (vRaw v) = Ok tb ->
  (if vSized v then toVarInt (Z.of_nat (length (vData v))) else Ok []) = Ok sz -> prBuf r = tb ++ sz ++ body ++ rest -> rLast r = l ->
  pckReadTagNext r = Ok (mkPRead (body ++ rest) i (vType v) (vRaw v) (Z.of_nat (length (vData v))) (prTop r) (prStack r)).
Proof.
  intros Hl Hi Hv Et Es Hb HL. destruct (tag_read (vType v) (i - l - 1) (vRaw v) (vType_known v Hv) (vRaw_fits v Hv)) as (tb' & Et' & _ & R); [unfold idMax, two32 in *; lia|].
  rewrite Et in Et'. injection Et' as <-. rewrite (R r _ Hb), HL, vSized_type by exact Hv. cbv zeta.
  assert (E : (i - l - 1 + l + 1) mod two32 = i) by (rewrite Z.mod_small; unfold idMax, two32 in *; lia). rewrite E. destruct (vSized v) eqn:V.
  - destruct (roundtrip (Z.of_nat (length (vData v)))) as (z & Ez & _ & _ & _ & Rz).
    { unfold isU64, two64. destruct v as [[]|]; try discriminate V; cbn [vOk scalarOk vData] in *; lia. }
    rewrite Es in Ez. injection Ez as <-. rewrite Rz. reflexivity.
  - injection Es as <-. cbn [app bind]. now rewrite (vSized_data v V).
Qed.

Lemma take_app a b : takeBytes (Z.of_nat (length a)) (a ++ b) = Ok (a, b).
Proof.
  unfold takeBytes. rewrite app_length. destruct (Z.ltb_spec (Z.of_nat (length a + length b)) (Z.of_nat (length a))); [lia|]. rewrite Nat2Z.id.
  rewrite firstn_app, skipn_app, Nat.sub_diag, firstn_all, skipn_all. cbn. now rewrite app_nil_r.
Qed.

(** A tag is available (field or end). *)
Definition ready (r : pread) : Prop := prId r <> 0.
Lemma at_next fs outer l r : at_ fs outer l r -> exists r1, (if prId r =? 0 then pckReadTagNext r else Ok r) = Ok r1 /\ at_ fs outer l r1 /\ ready r1 /\ prStack r1 = prStack r /\ prTop r1 = prTop r /\
   (length (prBuf r1) + (if (prId r =? 0)%Z then 1 else 0) <= length (prBuf r))%nat.
Proof.
  intros [pre rest b E P En Hb Hid HL H0|pre i v rest body b E P Hi Hv Hin En Hb Hid Ht Hva Hs HL H0|P Hb Hid HL H0].
  - rewrite Hid. cbn [Z.eqb]. destruct rest as [|[i v] rest].
    + inversion En; subst. cbn in Hb. eexists. split; [apply (tagNext_end r outer Hb)|]. split; [apply at_end; cbn; auto; intros j v Hj; rewrite app_nil_r in Hj; eauto|]. split; [discriminate|]. split; [reflexivity|]. split; [reflexivity|]. cbn. rewrite Hb. cbn. lia.
    + inversion En as [|? ? ? ? tb sz body b' Hi Hv Et Es Hin En']; subst. rewrite <- !app_assoc in Hb. eexists.
      split; [apply (tagNext_field r (rLast r) i v tb sz body (b' ++ 0 :: outer)); auto; lia|].
      split; [eapply at_field; cbn; eauto|]. split; [cbn; unfold ready; cbn; lia|]. split; [reflexivity|]. split; [reflexivity|]. cbn. rewrite Hb. destruct (tag_read (vType v) (i - rLast r - 1) (vRaw v) (vType_known v Hv) (vRaw_fits v Hv)) as (tb' & Et' & L & _); [unfold idMax, two32 in *; lia|].
      rewrite Et in Et'. injection Et' as <-. rewrite !app_length. cbn. lia.
  - exists r. assert (N : prId r =? 0 = false) by (apply Z.eqb_neq; lia). rewrite N. split; [reflexivity|]. split; [eapply at_field; eauto|]. split; [unfold ready; lia|]. repeat split; lia.
  - exists r. rewrite Hid. split; [reflexivity|]. split; [now apply at_end|]. split; [unfold ready; rewrite Hid; discriminate|]. repeat split. cbn. lia.
Qed.

Lemma loop_spec fs outer id t peek : 0 < id <= uintMax - 1 -> forall fuel l r, at_ fs outer l r -> (length (prBuf r) + (if (prId r =? 0)%Z then 0 else 1) < fuel)%nat -> l < id -> noCont fs l id ->
  exists r1 l1, l <= l1 < id /\ (l1 = l \/ exists w, In (l1, w) fs) /\ at_ fs outer l1 r1 /\ ready r1 /\ id <= prId r1 /\ prStack r1 = prStack r /\ fst (prTop r1) = fst (prTop r) /\
   readTagLoop fuel r id t peek = (if id <? prId r1 then Ok r1 else if peek then Ok r1 else if negb (prType r1 =? t) then Err EFormat else Ok (rSetId (rSetLast r1 id) 0)).
Proof.
  intros Hid. induction fuel as [|fuel IH]; intros l r Hat Hf Hl Hn; [lia|]. cbn [readTagLoop].
  destruct (at_next _ _ _ _ Hat) as (r1 & E & Hat1 & Hr1 & Hs1 & Ht1 & Hlen). rewrite E. cbn [bind].
  destruct (Z.ltb_spec id (prId r1)) as [L|L].
  { exists r1, l. split; [lia|]. split; [now left|]. split; [exact Hat1|]. split; [exact Hr1|]. split; [lia|]. split; [exact Hs1|]. split; [now rewrite Ht1|]. destruct (Z.ltb_spec id (prId r1)); [reflexivity|lia]. }
  destruct (Z.eqb_spec id (prId r1)) as [Q|Q].
  { exists r1, l. split; [lia|]. split; [now left|]. split; [exact Hat1|]. split; [exact Hr1|]. split; [lia|]. split; [exact Hs1|]. split; [now rewrite Ht1|]. destruct (Z.ltb_spec id (prId r1)); [lia|]. rewrite <- Q. reflexivity. }
  destruct Hat1 as [pre rest b E1 P En Hb Hid1 HL H0|pre i v rest body b E1 P Hi Hv Hin En Hb Hid1 Hty Hva Hsz HL H0|P Hb Hid1 HL H0]; [contradiction| |rewrite Hid1 in L; lia].
  assert (Sc : body = vData v).
  { inversion Hin; subst; [reflexivity|]. exfalso. eapply (Hn (prId r1)); [|split; [|lia]]; [apply in_app_iff; right; left; reflexivity|lia]. }
  subst body. unfold consumeBuffer. rewrite Hsz, Hb, take_app. cbn [bind].
  match goal with |- context [readTagLoop fuel ?x id t peek] => set (r2 := x) end.
  destruct (IH i r2) as (r3 & l3 & A1 & A1' & A2 & A3 & A4 & A5 & A6 & A7).
  - apply at_tag with (pre := pre ++ [(i, v)]) (rest := rest) (b := b); auto; try lia.
    + now rewrite <- app_assoc.
    + intros j w Hj. apply in_app_iff in Hj. destruct Hj as [Hj|[[= <- _]|[]]]; [specialize (P _ _ Hj); lia|lia].
  - subst r2. cbn [prBuf prId rSetId rSetLast Z.eqb]. rewrite Hb, app_length in Hlen. destruct (prId r =? 0); lia.
  - lia.
  - intros j t' sub Hj Hj'. eapply Hn; [exact Hj|lia].
  - exists r3, l3. split; [lia|]. split; [right; destruct A1' as [->|A1']; [exists v; rewrite E1; apply in_app_iff; right; now left|exact A1']|]. split; [exact A2|]. split; [exact A3|]. split; [exact A4|]. split; [rewrite A5; exact Hs1|]. split; [rewrite A6; cbn; now rewrite Ht1|]. exact A7.
Qed.

Lemma at_nonneg fs outer l r : at_ fs outer l r -> 0 <= l /\ rLast r = l.
Proof. intros []; auto. Qed.
Definition idx (id l : Z) : Z := if id =? 0 then l + 1 else id.
Lemma readTag_spec fs outer l r id t peek i : at_ fs outer l r -> i = idx id l -> l < i <= uintMax - 1 -> noCont fs l i ->
  exists r1 l1, l <= l1 < i /\ (l1 = l \/ exists w, In (l1, w) fs) /\ at_ fs outer l1 r1 /\ ready r1 /\ i <= prId r1 /\ prStack r1 = prStack r /\ fst (prTop r1) = fst (prTop r) /\
   pckReadTag r id t peek = let* r' := (if i <? prId r1 then Ok r1 else if peek then Ok r1 else if negb (prType r1 =? t) then Err EFormat else Ok (rSetId (rSetLast r1 i) 0)) in Ok (r', i, prValue r').
Proof.
  intros Hat Hi Hr Hn. destruct (at_nonneg _ _ _ _ Hat) as (H0 & HL). unfold pckReadTag. rewrite HL.
  assert (E : (if id =? 0 then (l + 1) mod two32 else id) = i) by (unfold idx in Hi; destruct (id =? 0); [rewrite Z.mod_small; unfold uintMax, two32 in *; lia|auto]). rewrite E.
  assert (G : negb (id =? 0) && (id <=? l) = false) by (unfold idx in Hi; destruct (id =? 0); [reflexivity|cbn; apply Z.leb_gt; lia]). rewrite G.
  destruct (loop_spec fs outer i t peek ltac:(lia) (length (prBuf r) + 2) l r Hat ltac:(destruct (prId r =? 0); lia) ltac:(lia) Hn) as (r1 & l1 & A1 & A1' & A2 & A3 & A4 & A5 & A6 & A7).
  exists r1, l1. rewrite A7. auto 12.
Qed.

(** Whether the id is there. *)
Lemma at_lookup fs outer l r i : at_ fs outer l r -> ready r -> l < i <= prId r -> i <= idMax ->
  ((exists v, In (i, v) fs) <-> i = prId r) /\ (forall v, In (i, v) fs -> prType r = vType v /\ prValue r = vRaw v).
Proof.
  intros [pre rest b E P En Hb Hid HL H0|pre k v rest body b E P Hi Hv Hin En Hb Hid Hty Hva Hs HL H0|P Hb Hid HL H0] Hr Hl Hm; [contradiction| |].
  - assert (U : forall w, In (i, w) fs -> i = prId r /\ w = v).
    { intros w Hw. rewrite E in Hw. apply in_app_iff in Hw. destruct Hw as [Hw|[[= <- <-]|Hw]]; [specialize (P _ _ Hw); lia|auto|]. pose proof (enc_gt _ _ _ En _ _ Hw). lia. }
    split; [split; [intros (w & Hw); now apply U in Hw|]|].
    + intros ->. exists v. rewrite E, Hid. apply in_app_iff. right. now left.
    + intros w Hw. apply U in Hw. destruct Hw as (_ & ->). auto.
  - split; [split; [intros (w & Hw); specialize (P _ _ Hw); lia|]|intros w Hw; specialize (P _ _ Hw); lia]. unfold uintMax, idMax, two32 in *. lia.
Qed.

Lemma readNull_spec fs outer l r id i : at_ fs outer l r -> i = idx id l -> l < i <= idMax -> noCont fs l i ->
  (exists v, In (i, v) fs) /\ (exists r1 l1, l <= l1 < i /\ (l1 = l \/ exists w, In (l1, w) fs) /\ at_ fs outer l1 r1 /\ prId r1 = i /\ prStack r1 = prStack r /\ fst (prTop r1) = fst (prTop r) /\ pckReadNull r id = Ok (r1, i, false)) \/
  (forall v, ~ In (i, v) fs) /\ (exists r1, at_ fs outer i r1 /\ prStack r1 = prStack r /\ fst (prTop r1) = fst (prTop r) /\ pckReadNull r id = Ok (r1, i, true)).
Proof.
  intros Hat Hi Hr Hn. destruct (readTag_spec fs outer l r id 0 true i Hat Hi ltac:(unfold uintMax, idMax, two32 in *; lia) Hn) as (r1 & l1 & A1 & A1' & A2 & A3 & A4 & A5 & A6 & A7).
  unfold pckReadNull. rewrite A7. destruct (at_lookup fs outer l1 r1 i A2 A3 ltac:(lia) ltac:(lia)) as (L1 & L2).
  destruct (Z.ltb_spec i (prId r1)) as [Q|Q]; cbn [bind].
  - right. split; [intros v Hv; assert (i = prId r1) by (apply L1; eauto); lia|]. destruct (Z.ltb_spec i (prId r1)); [|lia]. exists (rSetLast r1 i). split; [|auto].
    destruct A2 as [pre rest b E P En Hb Hid HL H0|pre k v rest body b E P Hk Hv Hin En Hb Hid Hty Hva Hs HL H0|P Hb Hid HL H0]; [contradiction| |].
    + apply at_field with (pre := pre) (i := k) (v := v) (rest := rest) (body := body) (b := b); try assumption; try reflexivity; try lia; try (intros j w Hj; specialize (P _ _ Hj); lia).
    + apply at_end; cbn; auto; try lia; intros j w Hj; specialize (P _ _ Hj); lia.
  - left. split; [apply L1; lia|]. destruct (Z.ltb_spec i (prId r1)); [lia|]. exists r1, l1. repeat split; auto; try lia.
Qed.

Lemma readScalar_spec fs outer l r k id i d s : at_ fs outer l r -> i = idx id l -> l < i <= idMax -> noCont fs l i -> In (i, VS s) fs -> k = kindOf s ->
  exists r1, at_ fs outer i r1 /\ prStack r1 = prStack r /\ fst (prTop r1) = fst (prTop r) /\ pckReadScalar r k id d = Ok (r1, Some s).
Proof.
  intros Hat Hi Hr Hn Hin Hk. unfold pckReadScalar. destruct (readNull_spec fs outer l r id i Hat Hi Hr Hn) as [(_ & r1 & l1 & A1 & A1' & A2 & A3 & A4 & A5 & A6)|(A & _)]; [|exfalso; now apply (A (VS s))].
  rewrite A6. cbn [bind]. assert (Hn1 : noCont fs l1 i) by (intros j t sub Hj Hj'; eapply Hn; [exact Hj|lia]).
  assert (I1 : i = idx i l1) by (unfold idx; destruct (Z.eqb_spec i 0); [destruct (at_nonneg _ _ _ _ Hat); lia|reflexivity]).
  destruct (readTag_spec fs outer l1 r1 i (kindType k) false i A2 I1 ltac:(unfold uintMax, idMax, two32 in *; lia) Hn1) as (r2 & l2 & B1 & B1' & B2 & B3 & B4 & B5 & B6 & B7). rewrite B7.
  destruct (at_lookup fs outer l2 r2 i B2 B3 ltac:(lia) ltac:(lia)) as (L1 & L2). destruct (L2 _ Hin) as (Ty & Va). assert (Id : i = prId r2) by (apply L1; eauto).
  rewrite <- Id, Z.ltb_irrefl, Ty. cbn [vType]. rewrite Hk, Z.eqb_refl. cbn [negb bind]. change (prValue (rSetId (rSetLast r2 i) 0)) with (prValue r2). rewrite Va.
  set (r3 := rSetId (rSetLast r2 i) 0).
  assert (At : exists pre rest b, fs = pre ++ rest /\ (forall j v, In (j, v) pre -> j <= i) /\ enc i rest b /\ prBuf r3 = vData (VS s) ++ b ++ 0 :: outer /\ prSize r3 = Z.of_nat (length (vData (VS s))) /\ scalarOk s).
  { destruct B2 as [pre rest b E P En Hb Hid HL H0|pre k' v rest body b E P Hk' Hv Hinn En Hb Hid Hty Hva Hs HL H0|P Hb Hid HL H0]; [contradiction| |rewrite Hid in Id; unfold uintMax, idMax, two32 in *; lia].
    assert (v = VS s). { rewrite E in Hin. apply in_app_iff in Hin. destruct Hin as [Hin|[[= _ ->]|Hin]]; [specialize (P _ _ Hin); lia|reflexivity|]. pose proof (enc_gt _ _ _ En _ _ Hin). lia. }
    subst v. inversion Hinn; subst. exists (pre ++ [(prId r2, VS s)]), rest, b. rewrite <- app_assoc. split; [reflexivity|]. split; [|rewrite Id; auto]. intros j v Hj. apply in_app_iff in Hj. destruct Hj as [Hj|[[= <- _]|[]]]; [specialize (P _ _ Hj); lia|lia]. }
  destruct At as (pre & rest & b & E & P & En & Hb & Hs & Hok).
  assert (Fin : forall r4, prBuf r4 = b ++ 0 :: outer -> prId r4 = 0 -> prTop r4 = prTop r3 -> prStack r4 = prStack r3 -> at_ fs outer i r4 /\ prStack r4 = prStack r /\ fst (prTop r4) = fst (prTop r)).
  { intros r4 F1 F2 F3 F4. split; [|split].
    - eapply at_tag; eauto; [unfold rLast; now rewrite F3|]. destruct (at_nonneg _ _ _ _ Hat). lia.
    - rewrite F4. cbn. congruence.
    - rewrite F3. cbn. congruence. }
  assert (Fin2 : vData (VS s) = [] -> at_ fs outer i r3 /\ prStack r3 = prStack r /\ fst (prTop r3) = fst (prTop r)) by (intros Z0; apply Fin; auto; rewrite Hb, Z0; reflexivity).
  assert (Dat : forall mk, mk (vData (VS s)) = s -> exists r4, at_ fs outer i r4 /\ prStack r4 = prStack r /\ fst (prTop r4) = fst (prTop r) /\ readData r3 mk = Ok (r4, Some s)).
  { intros mk Hmk. unfold readData. rewrite Hs, Hb, take_app. cbn [bind]. rewrite Hmk. exists (rSetBuf r3 (b ++ 0 :: outer)). destruct (Fin (rSetBuf r3 (b ++ 0 :: outer))) as (G1 & G2 & G3); auto. }
  destruct s; cbn [kindOf vRaw vData scalarOk] in *.
  - exists r3. destruct (Fin2 eq_refl) as (G1 & G2 & G3). repeat split; auto. now destruct b0.
  - exists r3. destruct (Fin2 eq_refl) as (G1 & G2 & G3). repeat split; auto. pose proof (zz_range (2^31) v Hok) as R. rewrite zigZag32_spec by exact Hok. rewrite Z.mod_small by (unfold two32; lia). rewrite unZigZag32_spec by exact R. now rewrite unzz_zz.
  - exists r3. destruct (Fin2 eq_refl) as (G1 & G2 & G3). repeat split; auto. pose proof (zz_range (2^63) v Hok) as R. rewrite zigZag64_spec by exact Hok. rewrite unZigZag64_spec by exact R. now rewrite unzz_zz.
  - exists r3. destruct (Fin2 eq_refl) as (G1 & G2 & G3). repeat split; auto. now rewrite Z.mod_small by (unfold two32; lia).
  - exists r3. destruct (Fin2 eq_refl) as (G1 & G2 & G3). repeat split; auto.
  - exists r3. destruct (Fin2 eq_refl) as (G1 & G2 & G3). repeat split; auto.
  - exists r3. destruct (Fin2 eq_refl) as (G1 & G2 & G3). repeat split; auto. pose proof (zz_range (2^63) v Hok) as R. rewrite zigZag64_spec by exact Hok. rewrite unZigZag64_spec by exact R. now rewrite unzz_zz.
  - exists r3. destruct (Fin2 eq_refl) as (G1 & G2 & G3). repeat split; auto. now rewrite Z.mod_small by (unfold two32; lia).
  - destruct s as [|x s]; [exists r3; destruct (Fin2 eq_refl) as (G1 & G2 & G3); now repeat split|]. cbn [nonEmpty Z.eqb negb]. now apply Dat.
  - destruct s as [|x s]; [exists r3; destruct (Fin2 eq_refl) as (G1 & G2 & G3); now repeat split|]. cbn [nonEmpty Z.eqb negb]. now apply Dat.
  - now apply Dat.
Qed.

Lemma readBegin_spec fs outer l r t id i sub : at_ fs outer l r -> i = idx id l -> l < i <= idMax -> noCont fs l i -> In (i, VC t sub) fs ->
  exists r1 pre rest b, pckReadBegin r t id = Ok r1 /\ at_ sub (b ++ 0 :: outer) 0 r1 /\ prStack r1 = (fst (prTop r), i) :: prStack r /\ fst (prTop r1) = t /\
    fs = pre ++ rest /\ (forall j v, In (j, v) pre -> j <= i) /\ enc i rest b.
Proof.
  intros Hat Hi Hr Hn Hin. unfold pckReadBegin.
  destruct (readTag_spec fs outer l r id t false i Hat Hi ltac:(unfold uintMax, idMax, two32 in *; lia) Hn) as (r2 & l2 & B1 & B1' & B2 & B3 & B4 & B5 & B6 & B7). rewrite B7.
  destruct (at_lookup fs outer l2 r2 i B2 B3 ltac:(lia) ltac:(lia)) as (L1 & L2). destruct (L2 _ Hin) as (Ty & Va). assert (Id : i = prId r2) by (apply L1; eauto).
  rewrite <- Id, Z.ltb_irrefl, Ty. cbn [vType]. rewrite Z.eqb_refl. cbn [negb bind].
  destruct B2 as [pre rest b E P En Hb Hid HL H0|pre k' v rest body b E P Hk' Hv Hinn En Hb Hid Hty Hva Hs HL H0|P Hb Hid HL H0]; [contradiction| |rewrite Hid in Id; unfold uintMax, idMax, two32 in *; lia].
  assert (v = VC t sub). { rewrite E in Hin. apply in_app_iff in Hin. destruct Hin as [Hin|[[= _ ->]|Hin]]; [specialize (P _ _ Hin); lia|reflexivity|]. pose proof (enc_gt _ _ _ En _ _ Hin). lia. }
  subst v. inversion Hinn as [|? ? sb Hsb]; subst. eexists. exists (pre ++ [(prId r2, VC t sub)]), rest, b. split; [reflexivity|]. split; [|split; [|split; [reflexivity|split; [now rewrite <- app_assoc|split]]]].
  - eapply at_tag with (pre := []) (rest := sub) (b := sb); try reflexivity; try lia; try (intros j v []); [exact Hsb|]. cbn [prBuf rSetId rSetLast]. rewrite Hb, <- app_assoc. reflexivity.
  - cbn. now rewrite B6, B5.
  - intros j v Hj. rewrite Id. apply in_app_iff in Hj. destruct Hj as [Hj|[[= <- _]|[]]]; [specialize (P _ _ Hj); lia|lia].
  - rewrite Id. exact En.
Qed.
Lemma end_spec fs outer l r : at_ fs outer l r -> l <= idMax -> noCont fs l (idMax + 1) -> (forall j v, In (j, v) fs -> j <= idMax) ->
  exists r1 v, pckReadTag r (uintMax - 1) 0 true = Ok (r1, uintMax - 1, v) /\ prBuf r1 = outer.
Proof.
  intros Hat Hl Hn Hm. assert (Hn' : noCont fs l (uintMax - 1)) by (intros j t sub Hj Hj'; eapply Hn; [exact Hj|]; specialize (Hm _ _ Hj); lia).
  destruct (readTag_spec fs outer l r (uintMax - 1) 0 true (uintMax - 1) Hat eq_refl ltac:(unfold uintMax, idMax, two32 in *; lia) Hn') as (r1 & l1 & A1 & A1' & A2 & A3 & A4 & A5 & A6 & A7).
  rewrite A7. destruct A2 as [pre rest b E P En Hb Hid HL H0|pre k v rest body b E P Hk Hv Hin En Hb Hid Hty Hva Hs HL H0|P Hb Hid HL H0]; [contradiction|unfold uintMax, idMax, two32 in *; lia|].
  rewrite Hid. exists r1, (prValue r1). split; [reflexivity|exact Hb].
Qed.

Lemma go_runRs ops : forall r, (fix go (r : pread) (ops : list rop) {struct ops} : res (pread * list out) :=
        match ops with [] => Ok (r, []) | o :: rest => let* (r', x) := runR r o in let* (r'', xs) := go r' rest in Ok (r'', x :: xs) end) r ops = runRs r ops.
Proof. induction ops as [|o l IH]; intros r; [reflexivity|]. cbn. destruct (runR r o) as [[r' x]| |]; cbn; [|reflexivity..]. now rewrite IH. Qed.

(** Ids of all levels fit. *)
Lemma enc_sub l fs b i t sub : enc l fs b -> In (i, VC t sub) fs -> exists sb, enc 0 sub sb.
Proof.
  revert l b. induction fs as [|[j v] fs IH]; intros l b H Hin; [destruct Hin|]. inversion H; subst. destruct Hin as [[= -> ->]|Hin]; [|eapply IH; eauto].
  match goal with X : inner _ _ |- _ => inversion X; subst; eauto end.
Qed.

Lemma reads_run fs l ops outs l' : reads fs l ops outs l' -> forall outer r b0, at_ fs outer l r -> enc 0 fs b0 -> l <= idMax ->
  exists r1, runRs r ops = Ok (r1, outs) /\ at_ fs outer l' r1 /\ prStack r1 = prStack r /\ fst (prTop r1) = fst (prTop r) /\ l' <= idMax.
Proof.
  induction 1 as [fs l|fs l k id i d s ops outs l' Hi Hr Hn Hin Hk H IH|fs l k id i d ops outs l' Hi Hr Hn Hno H IH|fs l id i ops outs l' Hi Hr Hn Hno H IH|fs l id i m v ops outs l' Hi Hr Hn Hin Hm H IH
    |fs l t id i sub sops souts ls ops outs l' Hi Hr Hn Hin Hs IHs Hns H IH]; intros outer r b0 Hat Henc Hlm; cbn [runRs runR].
  - exists r. auto.
  - destruct (readScalar_spec fs outer l r k id i d s Hat Hi Hr Hn Hin Hk) as (r1 & A1 & A2 & A3 & A4). rewrite A4. cbn [bind]. destruct (IH outer r1 b0 A1 Henc ltac:(lia)) as (r2 & B1 & B2 & B3 & B4 & B5). rewrite B1. cbn [bind].
    exists r2. repeat split; congruence || auto.
  - destruct (readNull_spec fs outer l r id i Hat Hi Hr Hn) as [((v & Hv) & _)|(_ & r1 & A1 & A2 & A3 & A4)]; [exfalso; now apply (Hno v)|]. unfold pckReadScalar. rewrite A4. cbn [bind].
    destruct (IH outer r1 b0 A1 Henc ltac:(lia)) as (r2 & B1 & B2 & B3 & B4 & B5). rewrite B1. cbn [bind]. exists r2. repeat split; congruence || auto.
  - destruct (readNull_spec fs outer l r id i Hat Hi Hr Hn) as [((v & Hv) & _)|(_ & r1 & A1 & A2 & A3 & A4)]; [exfalso; now apply (Hno v)|]. rewrite A4. cbn [bind].
    destruct (IH outer r1 b0 A1 Henc ltac:(lia)) as (r2 & B1 & B2 & B3 & B4 & B5). rewrite B1. cbn [bind]. exists r2. repeat split; congruence || auto.
  - destruct (readNull_spec fs outer l r id i Hat Hi Hr Hn) as [(_ & r1 & l1 & A1 & A1' & A2 & A3 & A4 & A5 & A6)|(Hno & _)]; [|exfalso; now apply (Hno v)]. rewrite A6. cbn [bind].
    assert (m = l1).
    { destruct Hm as (M1 & M2 & M3). destruct (Z.lt_trichotomy m l1) as [Q|[Q|Q]]; [exfalso|exact Q|exfalso].
      - destruct A1' as [->|(w & Hw)]; [lia|]. apply (M3 _ _ Hw). lia.
      - destruct M2 as [->|(w & Hw)]; [lia|].
        destruct A2 as [pre rest b E P En Hb Hid HL H0|pre k' x rest body b E P Hk' Hv Hinn En Hb Hid Hty Hva Hs HL H0|P Hb Hid HL H0]; [destruct (at_nonneg _ _ _ _ Hat); lia| |specialize (P _ _ Hw); lia].
        rewrite E in Hw. apply in_app_iff in Hw. destruct Hw as [Hw|[[= Hw _]|Hw]]; [specialize (P _ _ Hw); lia|lia|pose proof (enc_gt _ _ _ En _ _ Hw); lia]. }
    subst m. destruct (IH outer r1 b0 A2 Henc ltac:(lia)) as (r2 & B1 & B2 & B3 & B4 & B5). rewrite B1. cbn [bind]. exists r2. repeat split; congruence || auto.
  - destruct (readBegin_spec fs outer l r t id i sub Hat Hi Hr Hn Hin) as (r1 & pre & rest & b & A1 & A2 & A3 & A4 & A5 & A6 & A7). rewrite A1. cbn [bind]. destruct (enc_sub _ _ _ _ _ _ Henc Hin) as (sb & Hsb).
    destruct (IHs _ r1 sb A2 Hsb ltac:(unfold idMax; lia)) as (r2 & B1 & B2 & B3 & B4 & B5). rewrite go_runRs, B1. cbn [bind]. unfold pckReadEndCont. rewrite B3, A3, B4, A4, Z.eqb_refl.
    destruct (end_spec sub _ ls r2 B2 B5 Hns) as (r3 & v & C1 & C2); [intros j w Hj; pose proof (enc_gt _ _ _ Hsb _ _ Hj); lia|]. rewrite C1. cbn [bind].
    match goal with |- context [runRs ?x ops] => set (r4 := x) end.
    destruct (IH outer r4 b0) as (r5 & D1 & D2 & D3 & D4 & D5); [|exact Henc|lia|].
    + eapply at_tag; cbn; eauto. destruct (at_nonneg _ _ _ _ Hat). lia.
    + rewrite D1. cbn [bind]. exists r5. repeat split; auto.
Qed.
