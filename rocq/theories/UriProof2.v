(** Proofs for queries and dates. *)
From Verif Require Import Base Str ConvertModel NumModel NumSpec NumProof LsnModel LsnProof RegNameModel TimeModel TimeSpec TimeProof JsonModel JsonProof2 JsonProof4 SpoolModel SpoolSpec TimelineProof HttpModel HttpSpec HttpProof HttpProof2 HttpProof4 UriModel UriSpec UriProof.
From Coq Require Import String List Sorted Permutation.
Open Scope Z_scope. Open Scope list_scope.

(** * Keys and values *)
Lemma kvGet_in (q : query) k : kvGet q k = None <-> ~ In k (map fst q).
Proof.
  induction q as [|[k0 v0] q IH]; cbn [kvGet map fst In]; [tauto|]. destruct (strEqb k0 k) eqn:E.
  - apply strEqb_eq in E. split; [discriminate|]. intros H. exfalso. apply H. now left.
  - rewrite IH. split; [|tauto]. intros H [K|K]; [|tauto]. apply strEqb_eq in K. congruence.
Qed.
Lemma kvGet_some (q : query) k v : NoDup (map fst q) -> kvGet q k = Some v <-> In (k, v) q.
Proof.
  induction q as [|[k0 v0] q IH]; intros N; cbn [kvGet In]; [split; [discriminate|tauto]|]. inversion N as [|? ? NI ND]; subst. destruct (strEqb k0 k) eqn:E.
  - apply strEqb_eq in E. subst k0. split; [intros [= ->]; now left|]. intros [[= ->]|I]; [reflexivity|]. exfalso. apply NI. change k with (fst (k, v)). now apply in_map.
  - rewrite IH by exact ND. split; [tauto|]. intros [[= -> ->]|I]; [|exact I]. rewrite strEqb_refl in E. discriminate.
Qed.
Lemma add_spec q k v q2 : queryAdd q k v = Ok q2 <-> ~ In k (map fst q) /\ q2 = q ++ [(k, v)].
Proof.
  unfold queryAdd. destruct (kvGet q k) eqn:G.
  - split; [discriminate|]. intros (N & _). apply kvGet_in in N. congruence.
  - apply kvGet_in in G. rewrite kvPut_new by exact G. split; [intros [= <-]; auto|]. intros (_ & ->). reflexivity.
Qed.
Lemma add_err q k v : In k (map fst q) -> queryAdd q k v = Err EAssert.
Proof. intros I. unfold queryAdd. destruct (kvGet q k) eqn:G; [reflexivity|]. apply kvGet_in in G. contradiction. Qed.
Lemma put_get (q : query) k v k2 : kvGet (kvPut q k v) k2 = if strEqb k k2 then Some v else kvGet q k2.
Proof.
  induction q as [|[k0 v0] q IH]; cbn [kvPut kvGet].
  - destruct (strEqb k k2); reflexivity.
  - destruct (strEqb k0 k) eqn:E; cbn [kvGet].
    + apply strEqb_eq in E. subst k0. destruct (strEqb k k2); reflexivity.
    + rewrite IH. destruct (strEqb k0 k2) eqn:E2; [|reflexivity]. apply strEqb_eq in E2. subst k2. destruct (strEqb k k0) eqn:E3; [|reflexivity]. apply strEqb_eq in E3. subst k0. rewrite strEqb_refl in E. discriminate.
Qed.
Lemma put_nodup (q : query) k v : NoDup (map fst q) -> NoDup (map fst (kvPut q k v)) /\ forall x, In x (map fst (kvPut q k v)) <-> x = k \/ In x (map fst q).
Proof.
  induction q as [|[k0 v0] q IH]; intros N; cbn [kvPut map fst].
  - split; [constructor; [intros []|constructor]|]. intros x. cbn. intuition congruence.
  - inversion N as [|? ? NI ND]; subst. destruct (strEqb k0 k) eqn:E; cbn [map fst].
    + apply strEqb_eq in E. subst k0. split; [exact N|]. intros x. cbn [In]. intuition congruence.
    + destruct (IH ND) as (A & B). split.
      * constructor; [|exact A]. rewrite B. intros [K|K]; [|contradiction]. subst k0. rewrite strEqb_refl in E. discriminate.
      * intros x. cbn [In]. rewrite B. tauto.
Qed.
Lemma merge_spec from : forall q q2, queryMerge q from = Ok q2 <-> q2 = q ++ from /\ NoDup (map fst from) /\ (forall k, In k (map fst from) -> ~ In k (map fst q)).
Proof.
  induction from as [|[k v] from IH]; intros q q2; cbn [queryMerge].
  - split; [intros [= <-]; rewrite app_nil_r; repeat split; [constructor|intros k []]|]. intros (-> & _). now rewrite app_nil_r.
  - split.
    + destruct (queryAdd q k v) as [q1| |] eqn:A; [|discriminate..]. cbn [bind]. apply add_spec in A. destruct A as (NI & ->). intros H. apply IH in H. destruct H as (-> & ND & D).
      rewrite <- app_assoc. split; [reflexivity|]. cbn [map fst]. split.
      * constructor; [|exact ND]. intros I. apply (D k I). rewrite map_app, in_app_iff. right. now left.
      * intros x [<-|I]; [exact NI|]. intros J. apply (D x I). rewrite map_app, in_app_iff. now left.
    + intros (-> & ND & D). cbn [map fst] in *. inversion ND as [|? ? NI ND2]; subst. rewrite (proj2 (add_spec q k v (q ++ [(k, v)]))) by (split; [apply D; now left|reflexivity]). cbn [bind].
      apply IH. rewrite <- app_assoc. split; [reflexivity|]. split; [exact ND2|]. intros x I. rewrite map_app, in_app_iff. cbn [map In fst]. intros [J|[J|[]]]; [apply (D x); [now right|exact J]|congruence].
Qed.
Lemma merge_err from : forall q, (exists q2, queryMerge q from = Ok q2) \/ queryMerge q from = Err EAssert.
Proof.
  induction from as [|[k v] from IH]; intros q; cbn [queryMerge]; [eauto|]. unfold queryAdd. destruct (kvGet q k); cbn [bind]; [now right|apply IH].
Qed.

(** * Parsing *)
Lemma pair_split p k v : splitOn 61 p = [k; v] <-> p = k ++ 61 :: v /\ ~ In 61 k /\ ~ In 61 v.
Proof.
  split; [apply splitOn_two|]. intros (-> & K & V). rewrite splitOn_app by exact K. now rewrite splitOn_nosep.
Qed.
Lemma pairs_sound s q0 q : ~ In 0 s -> queryPairs q0 (splitOn 38 s) = Ok q ->
  exists ts new, pairsText s ts /\ Forall2 decodedPair ts new /\ q = q0 ++ new /\ (NoDup (map fst q0) -> NoDup (map fst (q0 ++ new))).
Proof.
  remember (splitOn 38 s) as l eqn:El. revert s El q0. induction l as [|p l IH]; intros s El q0 Z0; [symmetry in El; now apply splitOn_ne in El|].
  cbn [queryPairs]. assert (HP : exists r, (l = [] /\ s = p \/ s = p ++ 38 :: r /\ l = splitOn 38 r) /\ ~ In 38 p).
  { destruct l as [|p2 l]; [symmetry in El; apply splitOn_one in El; destruct El as (-> & N); exists []; split; [now left|exact N]|].
    symmetry in El. apply splitOn_cons in El. destruct El as (r & -> & N & E). exists r. split; [right; split; [reflexivity|now symmetry]|exact N]. }
  destruct HP as (r & HP & N38). assert (Zp : ~ In 0 p) by (destruct HP as [(_ & ->)|(-> & _)]; [exact Z0|]; intros K; apply Z0, in_app_iff; now left).
  rewrite cz_id by exact Zp. destruct (splitOn 61 p) as [|k [|v [|? ?]]] eqn:SP; try discriminate. apply pair_split in SP. destruct SP as (-> & K & V).
  destruct (uriDecode k) as [dk| |] eqn:DK; [|discriminate..]. cbn [bind]. destruct (uriDecode v) as [dv| |] eqn:DV; [|discriminate..]. cbn [bind]. apply decode_spec in DK. apply decode_spec in DV.
  destruct (queryAdd q0 dk dv) as [q1| |] eqn:A; [|discriminate..]. cbn [bind]. apply add_spec in A. destruct A as (NI & ->). intros H.
  rewrite in_app_iff in N38. cbn [In] in N38. assert (PK : plain k) by (split; tauto). assert (PV : plain v) by (split; tauto).
  assert (ND1 : NoDup (map fst q0) -> NoDup (map fst (q0 ++ [(dk, dv)]))).
  { intros ND. rewrite map_app. cbn [map fst]. apply NoDup_Add with (a := dk) (l := map fst q0); [rewrite <- (app_nil_r (map fst q0)) at 1; apply Add_app|]. auto. }
  destruct HP as [(-> & ->)|(-> & El2)].
  - cbn [queryPairs] in H. injection H as <-. exists [(k, v)], [(dk, dv)]. split; [now constructor|]. split; [repeat constructor; assumption|]. auto.
  - assert (Zr : ~ In 0 r) by (intros X; apply Z0, in_app_iff; right; now right). destruct (IH r El2 (q0 ++ [(dk, dv)]) Zr H) as (ts & new & PT & F & -> & ND2).
    exists ((k, v) :: ts), ((dk, dv) :: new). split; [rewrite <- app_assoc; cbn [app]; now constructor|]. split; [constructor; [split; assumption|exact F]|].
    rewrite <- app_assoc in *. split; [reflexivity|]. auto.
Qed.
Lemma pairs_complete s ts : pairsText s ts -> ~ In 0 s -> forall q0 new, Forall2 decodedPair ts new -> NoDup (map fst (q0 ++ new)) -> queryPairs q0 (splitOn 38 s) = Ok (q0 ++ new).
Proof.
  assert (ST : forall k v q0 dk dv l, plain k -> plain v -> ~ In 0 (k ++ 61 :: v) -> decoded k dk -> decoded v dv -> ~ In dk (map fst q0) ->
    queryPairs q0 ((k ++ 61 :: v) :: l) = queryPairs (q0 ++ [(dk, dv)]) l).
  { intros k v q0 dk dv l (K1 & K2) (V1 & V2) Z0 DK DV NI. cbn [queryPairs]. rewrite cz_id by exact Z0. rewrite (proj2 (pair_split _ k v)) by auto.
    apply decode_spec in DK. apply decode_spec in DV. rewrite DK, DV. cbn [bind]. rewrite (proj2 (add_spec q0 dk dv _)) by (split; [exact NI|reflexivity]). reflexivity. }
  assert (N38 : forall k v, plain k -> plain v -> ~ In 38 (k ++ 61 :: v)) by (intros k v (K1 & _) (V1 & _); rewrite in_app_iff; cbn [In]; intuition lia).
  assert (NF : forall (q0 new : query) dk dv, NoDup (map fst (q0 ++ (dk, dv) :: new)) -> ~ In dk (map fst q0)).
  { intros q0 new dk dv ND I. rewrite map_app in ND. cbn [map fst] in ND. apply NoDup_remove_2 in ND. apply ND, in_app_iff. now left. }
  induction 1 as [k v PK PV|k v s ts PK PV H IH]; intros Z0 q0 new F ND; inversion F as [|? [dk dv] ? ? (DK & DV) F2]; subst; cbn [fst snd] in *.
  - inversion F2; subst. rewrite splitOn_nosep by auto. rewrite ST with (dk := dk) (dv := dv); eauto.
  - replace (k ++ 61 :: v ++ 38 :: s) with ((k ++ 61 :: v) ++ 38 :: s) in * by (now rewrite <- app_assoc). rewrite splitOn_app by auto. rewrite in_app_iff in Z0. cbn [In] in Z0.
    rewrite ST with (dk := dk) (dv := dv); eauto. rewrite IH with (new := l'); [now rewrite <- app_assoc|tauto|exact F2|]. rewrite <- app_assoc. exact ND.
Qed.
Lemma newStr_spec s q : queryNewStr s = Ok q <-> exists ts, queryText s ts /\ Forall2 decodedPair ts q /\ NoDup (map fst q).
Proof.
  unfold queryNewStr, queryText. set (u := if strBeginsWith s (txt "?") then skipn 1 s else s).
  assert (HU : s = 63 :: u \/ ((forall x, s <> 63 :: x) /\ u = s)).
  { unfold u. destruct s as [|c s]; [right; split; [discriminate|reflexivity]|]. change (strBeginsWith (c :: s) (txt "?")) with (strEqb [c] [63]). destruct (strEqb [c] [63]) eqn:E.
    - apply strEqb_eq in E. injection E as ->. now left.
    - right. split; [|reflexivity]. intros x [= -> ->]. discriminate. }
  split.
  - intros H. destruct (cz_spec u) as (Z0 & HZ). apply pairs_sound in H; [|exact Z0]. destruct H as (ts & new & PT & F & -> & ND). exists ts. split; [|split; [exact F|apply ND; constructor]].
    exists u, (cz u). split; [exact HU|]. split; [now apply zText_cz|exact PT].
  - intros (ts & (u2 & t & HU2 & Zt & PT) & F & ND). assert (u2 = u) by (destruct HU as [HU|(HU & HU1)], HU2 as [HU2|(HU2 & HU3)]; [congruence|exfalso; eapply HU2; exact HU|exfalso; eapply HU; exact HU2|congruence]). subst u2.
    pose proof (proj1 Zt) as Z0. apply zText_cz in Zt. rewrite Zt. apply (pairs_complete t ts PT Z0 [] q F ND).
Qed.
Lemma pairs_err l : forall q, (exists q2, queryPairs q l = Ok q2) \/ queryPairs q l = Err EFormat \/ queryPairs q l = Err EAssert.
Proof.
  induction l as [|p l IH]; intros q; cbn [queryPairs]; [eauto|]. destruct (splitOn 61 (cz p)) as [|k [|v [|? ?]]]; auto.
  destruct (decode_err k) as [(dk & ->)| ->]; cbn [bind]; [|auto]. destruct (decode_err v) as [(dv & ->)| ->]; cbn [bind]; [|auto].
  unfold queryAdd. destruct (kvGet q dk); cbn [bind]; auto.
Qed.

(** * Rendering *)
Definition pairText (t : str * str) : str := fst t ++ 61 :: snd t.
Lemma join_text ts : ts <> [] -> Forall (fun t => plain (fst t) /\ plain (snd t)) ts -> pairsText (joinAmp (map pairText ts)) ts.
Proof.
  induction ts as [|[k v] ts IH]; [contradiction|]. intros _ F. inversion F as [|? ? (PK & PV) F2]; subst. destruct ts as [|t2 ts].
  - cbn. now constructor.
  - cbn [map joinAmp]. unfold pairText at 1. cbn [fst snd] in *. rewrite <- app_assoc. cbn [app]. constructor; [exact PK|exact PV|]. apply IH; [discriminate|exact F2].
Qed.
Lemma inEscaped_not c : inEscaped false c -> c <> 38 /\ c <> 61 /\ c <> 0 /\ c <> 63.
Proof. unfold inEscaped, unreserved. change (txt "-._~") with [45; 46; 95; 126]. cbn [In]. intuition (lia || congruence). Qed.
Lemma encode_plain s : Forall byte s -> plain (uriEncode false s) /\ ~ In 0 (uriEncode false s) /\ ~ In 63 (uriEncode false s).
Proof.
  intros B. apply (encode_escaped false) in B. apply escaped_chars in B. rewrite Forall_forall in B.
  repeat split; intros I; apply B in I; apply inEscaped_not in I; tauto.
Qed.
Definition renderText (redact : str -> bool) (q : query) (k : str) : str * str :=
  (uriEncode false k, if redact k then txt "<redacted>" else uriEncode false (match queryGet q k with Some v => v | None => [] end)).
Lemma render_is redact q : queryRender redact q = match q with [] => None | _ => Some (joinAmp (map pairText (map (renderText redact q) (strLstSortAsc (map fst q))))) end.
Proof. unfold queryRender. destruct q; [reflexivity|]. now rewrite map_map. Qed.
Definition sortedQuery (q : query) : query := map (fun k => (k, match queryGet q k with Some v => v | None => [] end)) (strLstSortAsc (map fst q)).
Lemma sorted_keys q : map fst (sortedQuery q) = strLstSortAsc (map fst q).
Proof. unfold sortedQuery. rewrite map_map. cbn [fst]. apply map_id. Qed.
Lemma sorted_perm q : NoDup (map fst q) -> Permutation (sortedQuery q) q.
Proof.
  intros ND. apply NoDup_Permutation.
  - apply (NoDup_map_inv fst). rewrite sorted_keys. eapply Permutation_NoDup; [symmetry; apply strLstSortAsc_perm|exact ND].
  - eapply NoDup_map_inv. exact ND.
  - intros [k v]. unfold sortedQuery. rewrite in_map_iff. split.
    + intros (x & [= -> <-] & I). rewrite strLstSortAsc_in in I. unfold queryGet. destruct (kvGet q k) as [w|] eqn:G; [now apply kvGet_some|]. apply kvGet_in in G. exfalso. apply G. exact I.
    + intros I. exists k. split; [|apply strLstSortAsc_in; change k with (fst (k, v)); now apply in_map]. apply kvGet_some in I; [|exact ND]. unfold queryGet. now rewrite I.
Qed.
Lemma render_parse q t : NoDup (map fst q) -> Forall (fun p => Forall byte (fst p) /\ Forall byte (snd p)) q -> queryRender (fun _ => false) q = Some t ->
  queryNewStr t = Ok (sortedQuery q) /\ queryNewStr (63 :: t) = Ok (sortedQuery q).
Proof.
  intros ND B. rewrite render_is. destruct q as [|p0 q0] eqn:Eq; [discriminate|]. rewrite <- Eq in *. intros [= <-]. set (ks := strLstSortAsc (map fst q)).
  assert (NE : ks <> []) by (intros K; assert (I0 : In (fst p0) ks) by (unfold ks; apply strLstSortAsc_in; rewrite Eq; now left); rewrite K in I0; exact I0).
  assert (BK : forall k, In k ks -> Forall byte k /\ Forall byte (match queryGet q k with Some v => v | None => [] end)).
  { intros k I. unfold ks in I. rewrite strLstSortAsc_in in I. apply in_map_iff in I. destruct I as ([k1 v1] & <- & I). cbn [fst]. rewrite Forall_forall in B. destruct (B _ I) as (B1 & B2). cbn [fst snd] in *.
    split; [exact B1|]. apply kvGet_some in I; [|exact ND]. unfold queryGet. now rewrite I. }
  set (ts := map (renderText (fun _ => false) q) ks). assert (PT : pairsText (joinAmp (map pairText ts)) ts).
  { apply join_text; [unfold ts; intros K; apply map_eq_nil in K; now apply NE|]. apply Forall_forall. intros t I. unfold ts in I. apply in_map_iff in I. destruct I as (k & <- & I). cbn. destruct (BK k I).
    split; now apply encode_plain. }
  assert (FD : Forall2 decodedPair ts (sortedQuery q)).
  { unfold ts. change (sortedQuery q) with (map (fun k : str => (k, match queryGet q k with Some v => v | None => [] end)) ks). clear - BK. clearbody ks. induction ks as [|k ks IH]; [constructor|]. cbn [map]. constructor; [|apply IH; intros; apply BK; now right]. destruct (BK k) as (B1 & B2); [now left|].
    split; cbn; (eapply escaped_decoded; apply encode_escaped; assumption). }
  assert (NS : NoDup (map fst (sortedQuery q))) by (rewrite sorted_keys; eapply Permutation_NoDup; [symmetry; apply strLstSortAsc_perm|exact ND]).
  assert (Z0 : ~ In 0 (joinAmp (map pairText ts)) /\ ~ In 63 (joinAmp (map pairText ts))).
  { assert (G : forall c, c <> 38 -> c <> 61 -> (forall t, In t ts -> ~ In c (fst t) /\ ~ In c (snd t)) -> ~ In c (joinAmp (map pairText ts))).
    { intros c C1 C2. clear - C1 C2. clearbody ts. induction ts as [|t ts IH]; [intros _ []|]. intros H. assert (HT : ~ In c (pairText t)).
      { unfold pairText. rewrite in_app_iff. cbn [In]. destruct (H t); [now left|]. intuition lia. }
      destruct ts as [|t2 ts]; [exact HT|]. cbn [map joinAmp] in *. rewrite in_app_iff. cbn [In]. intros [K|[K|K]]; [contradiction|lia|]. apply IH in K; [exact K|]. intros x I. apply H. now right. }
    split; apply G; try lia; intros t I; unfold ts in I; apply in_map_iff in I; destruct I as (k & <- & I); cbn; destruct (BK k I) as (B1 & B2); split; now apply encode_plain. }
  destruct Z0 as (Z0 & Z63). split; apply newStr_spec; exists ts; (split; [|split; assumption]).
  - exists (joinAmp (map pairText ts)), (joinAmp (map pairText ts)). split; [right; split; [|reflexivity]|split; [split; [exact Z0|now left]|exact PT]]. intros x K. apply Z63. change (joinAmp (map pairText ts) = 63 :: x) in K. rewrite K. now left.
  - exists (joinAmp (map pairText ts)), (joinAmp (map pairText ts)). split; [now left|split; [split; [exact Z0|now left]|exact PT]].
Qed.
Lemma render_redact redact q1 q2 : map fst q1 = map fst q2 -> (forall k, redact k = false -> queryGet q1 k = queryGet q2 k) -> queryRender redact q1 = queryRender redact q2.
Proof.
  intros E H. rewrite !render_is. rewrite E. assert (M : map (renderText redact q1) (strLstSortAsc (map fst q2)) = map (renderText redact q2) (strLstSortAsc (map fst q2))).
  { apply map_ext. intros k. unfold renderText. destruct (redact k) eqn:R; [reflexivity|]. now rewrite H. }
  rewrite M. destruct q1, q2; try discriminate; reflexivity.
Qed.

(** * Dates *)
Lemma dec2_digits v : 0 <= v < 100 -> digitsIs 10 (dec2 v) v.
Proof.
  intros H. assert (0 <= v / 10 < 10) by (split; [apply Z.div_pos; lia|apply Z.div_lt_upper_bound; lia]). assert (0 <= v mod 10 < 10) by (apply Z.mod_pos_bound; lia).
  unfold dec2. rewrite (Z.div_mod v 10) at 3 by lia. rewrite (Z.mul_comm 10). apply (ds_snoc 10 [48 + v / 10]); [constructor; [constructor; lia|lia]|constructor; lia|lia].
Qed.
Lemma digits_app s v t w : digitsIs 10 s v -> digitsIs 10 t w -> digitsIs 10 (s ++ t) (v * 10 ^ Z.of_nat (length t) + w).
Proof.
  intros A. induction 1 as [c d D L|t w c d D1 IH D L].
  - cbn [length]. change (10 ^ Z.of_nat 1) with 10. now constructor.
  - rewrite app_assoc, app_length, Nat2Z.inj_add, Z.pow_add_r by lia. cbn [length]. change (10 ^ Z.of_nat 1) with 10. replace (v * (10 ^ Z.of_nat (length t) * 10) + (w * 10 + d)) with ((v * 10 ^ Z.of_nat (length t) + w) * 10 + d) by ring.
    now constructor.
Qed.
Lemma dec4_digits v : 0 <= v < 10000 -> digitsIs 10 (dec4 v) v.
Proof.
  intros H. assert (0 <= v / 100 < 100) by (split; [apply Z.div_pos; lia|apply Z.div_lt_upper_bound; lia]). assert (0 <= v mod 100 < 100) by (apply Z.mod_pos_bound; lia).
  unfold dec4. rewrite (Z.div_mod v 100) at 3 by lia. rewrite (Z.mul_comm 100). apply (digits_app (dec2 (v / 100)) (v / 100) (dec2 (v mod 100)) (v mod 100)); now apply dec2_digits.
Qed.

Lemma cvt_digits s v : digitsIs 10 s v -> 0 <= v < 10000 -> ~ In 0 s -> cvtZToInt 10 (cz s) = Ok v.
Proof. intros D B N. rewrite cz_id by exact N. apply cvtZToInt_spec; [lia|]. split; [left; exists [], [], s; repeat split; [now left|now left|exact D]|]. change two31 with 2147483648. lia. Qed.
Lemma dec2_nz v : 0 <= v < 100 -> ~ In 0 (dec2 v).
Proof.
  intros H. assert (0 <= v / 10 < 10) by (split; [apply Z.div_pos; lia|apply Z.div_lt_upper_bound; lia]). assert (0 <= v mod 10 < 10) by (apply Z.mod_pos_bound; lia). unfold dec2. cbn [In]. lia.
Qed.
Lemma cvt_dec2 v : 0 <= v < 100 -> cvtZToInt 10 (cz (dec2 v)) = Ok v.
Proof. intros H. apply cvt_digits; [now apply dec2_digits|lia|now apply dec2_nz]. Qed.
Lemma cvt_dec4 v : 0 <= v < 10000 -> cvtZToInt 10 (cz (dec4 v)) = Ok v.
Proof.
  intros H. apply cvt_digits; [now apply dec4_digits|lia|]. assert (0 <= v / 100 < 100) by (split; [apply Z.div_pos; lia|apply Z.div_lt_upper_bound; lia]). assert (0 <= v mod 100 < 100) by (apply Z.mod_pos_bound; lia).
  unfold dec4. rewrite in_app_iff. intros [K|K]; eapply dec2_nz in K; eauto.
Qed.
Lemma day_three w : 0 <= w < 7 -> exists a b c, nth (Z.to_nat w) dayNames [] = [a; b; c].
Proof.
  intros H. assert (E : w = 0 \/ w = 1 \/ w = 2 \/ w = 3 \/ w = 4 \/ w = 5 \/ w = 6) by lia. repeat destruct E as [->|E]; try subst w; repeat eexists; reflexivity.
Qed.
Lemma month_three m : 0 <= m < 12 -> exists a b c, nth (Z.to_nat m) monthNames [] = [a; b; c] /\ findIdx [a; b; c] monthNames = Some m.
Proof.
  intros H. assert (E : m = 0 \/ m = 1 \/ m = 2 \/ m = 3 \/ m = 4 \/ m = 5 \/ m = 6 \/ m = 7 \/ m = 8 \/ m = 9 \/ m = 10 \/ m = 11) by lia.
  repeat destruct E as [->|E]; try subst m; do 3 eexists; (split; [reflexivity|vm_compute; reflexivity]).
Qed.
Lemma date_read (a b c x y z : Z) (d yr h mi s : Z) : dateToTime ([a; b; c] ++ txt ", " ++ dec2 d ++ txt " " ++ [x; y; z] ++ txt " " ++ dec4 yr ++ txt " " ++ dec2 h ++ txt ":" ++ dec2 mi ++ txt ":" ++ dec2 s ++ txt " GMT") =
  match findIdx [x; y; z] monthNames with
  | None => Err EFormat
  | Some m => let* yy := cvtZToInt 10 (cz (dec4 yr)) in let* dd := cvtZToInt 10 (cz (dec2 d)) in let* hh := cvtZToInt 10 (cz (dec2 h)) in
      let* mm := cvtZToInt 10 (cz (dec2 mi)) in let* ss := cvtZToInt 10 (cz (dec2 s)) in epochFromParts yy (m + 1) dd hh mm ss 0
  end.
Proof. reflexivity. Qed.
Lemma date_roundtrip w y m d h mi s n : dayNumber y m d n -> validTime h mi s -> y <= 2037 -> 0 <= w < 7 ->
  dateToTime (dateFromParts w d (m - 1) y h mi s) = Ok (n * 86400 + h * 3600 + mi * 60 + s).
Proof.
  intros DN VT Y W. pose proof (dayNumber_sound _ _ _ _ DN) as (VD & _). assert (B : 1970 <= y /\ 1 <= m <= 12 /\ 1 <= d <= 31) by (destruct VD as (Y0 & len & ML & D); split; [exact Y0|]; inversion ML as [? I|? I| |]; subst; cbn [In] in *; lia).
  destruct (day_three w W) as (a & b & c & EW). destruct (month_three (m - 1) ltac:(lia)) as (x & x2 & x3 & EM & FI). unfold dateFromParts. rewrite EW, EM, date_read, FI.
  unfold validTime in VT. rewrite cvt_dec4 by lia. rewrite !cvt_dec2 by lia. cbn [bind]. replace (m - 1 + 1) with m by lia. erewrite epoch_ok with (n := n); eauto; [f_equal; lia|lia].
Qed.
Lemma sort_perm_eq l l2 : NoDup l -> Permutation l l2 -> strLstSortAsc l = strLstSortAsc l2.
Proof.
  intros ND P. apply ssorted_unique.
  - apply sle_nodup_slt; [apply strLstSortAsc_sorted|]. eapply Permutation_NoDup; [symmetry; apply strLstSortAsc_perm|exact ND].
  - apply sle_nodup_slt; [apply strLstSortAsc_sorted|]. eapply Permutation_NoDup; [symmetry; apply strLstSortAsc_perm|]. eapply Permutation_NoDup; [exact P|exact ND].
  - intros x. rewrite !strLstSortAsc_in. split; apply Permutation_in; [exact P|now symmetry].
Qed.
Lemma findIdx_none x l : ~ In x l -> findIdx x l = None.
Proof.
  induction l as [|y l IH]; intros N; [reflexivity|]. cbn [findIdx]. destruct (strEqb x y) eqn:E; [apply strEqb_eq in E; subst y; exfalso; apply N; now left|]. rewrite IH; [reflexivity|]. intros I. apply N. now right.
Qed.

Lemma month_name m t : monthName m t -> 1 <= m <= 12 /\ length t = 3%nat /\ nth (Z.to_nat (m - 1)) monthNames [] = t /\ findIdx t monthNames = Some (m - 1).
Proof. unfold monthName. cbn [In]. intros H. repeat (destruct H as [H|H]; [injection H as <- <-; vm_compute; repeat split; discriminate|]). destruct H. Qed.
Lemma weekday_name w t : weekdayName w t -> nth (Z.to_nat w) dayNames [] = t.
Proof. unfold weekdayName. cbn [In]. intros H. repeat (destruct H as [H|H]; [injection H as <- <-; vm_compute; reflexivity|]). destruct H. Qed.
Lemma digitsIs_nz s v : digitsIs 10 s v -> ~ In 0 s.
Proof.
  assert (G : forall c d, digitIs c d -> d < 10 -> c <> 0) by (intros c d [] ?; lia).
  induction 1 as [c d D L|s v c d D1 IH D L]; [intros [K|[]]; eapply G; eauto|]. rewrite in_app_iff. intros [K|[K|[]]]; [contradiction|eapply G; eauto].
Qed.
Lemma cvt_fixed n s v : (n <= 4)%nat -> fixedDigits n s v -> cvtZToInt 10 (cz s) = Ok v.
Proof.
  intros L (E & D). apply cvt_digits; [exact D| |eapply digitsIs_nz; exact D]. apply digits_bound in D. rewrite E in D. assert (10 ^ Z.of_nat n <= 10 ^ 4) by (apply Z.pow_le_mono_r; lia). change (10 ^ 4) with 10000 in *. lia.
Qed.
Lemma skip_app (a b : str) n : length a = n -> skipn n (a ++ b) = b.
Proof. intros <-. rewrite skipn_app, skipn_all, Nat.sub_diag. reflexivity. Qed.
Lemma first_app (a b : str) n : length a = n -> firstn n (a ++ b) = a.
Proof. intros <-. rewrite firstn_app, firstn_all, Nat.sub_diag. apply app_nil_r. Qed.
Lemma date_any w dd c1 mn c2 yy c3 hh c4 mm c5 ss rest y m d h mi s n : length w = 5%nat -> fixedDigits 2 dd d -> length c1 = 1%nat -> monthName m mn -> length c2 = 1%nat -> fixedDigits 4 yy y -> length c3 = 1%nat ->
  fixedDigits 2 hh h -> length c4 = 1%nat -> fixedDigits 2 mm mi -> length c5 = 1%nat -> fixedDigits 2 ss s -> dayNumber y m d n -> validTime h mi s -> y <= 2037 ->
  dateToTime (w ++ dd ++ c1 ++ mn ++ c2 ++ yy ++ c3 ++ hh ++ c4 ++ mm ++ c5 ++ ss ++ rest) = Ok (n * 86400 + h * 3600 + mi * 60 + s).
Proof.
  intros Lw Fd L1 MN L2 Fy L3 Fh L4 Fm L5 Fs DN VT Y. destruct (month_name _ _ MN) as (Bm & Lm & _ & FI). pose proof (dayNumber_sound _ _ _ _ DN) as (VD & _).
  pose proof (proj1 Fd) as Ld. pose proof (proj1 Fy) as Ly. pose proof (proj1 Fh) as Lh. pose proof (proj1 Fm) as Lmi. pose proof (proj1 Fs) as Ls.
  set (t := w ++ _). assert (LT : (25 <= length t)%nat) by (unfold t; rewrite !app_length; lia). unfold dateToTime.
  destruct (Nat.ltb_spec (length t) 8); [lia|]. destruct (Nat.ltb_spec (length t) 24); [lia|]. cbv zeta.
  assert (P : forall (a b r : str) i k, t = a ++ b ++ r -> length a = i -> length b = k -> firstn k (skipn i t) = b).
  { intros a b r i k -> La Lb. rewrite skip_app by exact La. now apply first_app. }
  rewrite (P (w ++ dd ++ c1) mn (c2 ++ yy ++ c3 ++ hh ++ c4 ++ mm ++ c5 ++ ss ++ rest)); [|unfold t; now rewrite <- !app_assoc|rewrite !app_length; lia|exact Lm]. rewrite FI.
  rewrite (P (w ++ dd ++ c1 ++ mn ++ c2) yy (c3 ++ hh ++ c4 ++ mm ++ c5 ++ ss ++ rest)); [|unfold t; now rewrite <- !app_assoc|rewrite !app_length; lia|exact Ly].
  rewrite (P w dd (c1 ++ mn ++ c2 ++ yy ++ c3 ++ hh ++ c4 ++ mm ++ c5 ++ ss ++ rest)); [|reflexivity|exact Lw|exact Ld].
  rewrite (P (w ++ dd ++ c1 ++ mn ++ c2 ++ yy ++ c3) hh (c4 ++ mm ++ c5 ++ ss ++ rest)); [|unfold t; now rewrite <- !app_assoc|rewrite !app_length; lia|exact Lh].
  rewrite (P (w ++ dd ++ c1 ++ mn ++ c2 ++ yy ++ c3 ++ hh ++ c4) mm (c5 ++ ss ++ rest)); [|unfold t; now rewrite <- !app_assoc|rewrite !app_length; lia|exact Lmi].
  rewrite (P (w ++ dd ++ c1 ++ mn ++ c2 ++ yy ++ c3 ++ hh ++ c4 ++ mm ++ c5) ss rest); [|unfold t; now rewrite <- !app_assoc|rewrite !app_length; lia|exact Ls].
  rewrite (cvt_fixed 4 yy y), (cvt_fixed 2 dd d), (cvt_fixed 2 hh h), (cvt_fixed 2 mm mi), (cvt_fixed 2 ss s) by (lia || assumption). cbn [bind]. replace (m - 1 + 1) with m by lia.
  erewrite epoch_ok with (n := n); eauto; [f_equal; lia|lia].
Qed.
Lemma date_text w wn y m mn d h mi s : weekdayName w wn -> monthName m mn -> 0 <= y < 10000 -> 0 <= d < 100 -> 0 <= h < 100 -> 0 <= mi < 100 -> 0 <= s < 100 ->
  exists dd yy hh mm ss, fixedDigits 2 dd d /\ fixedDigits 4 yy y /\ fixedDigits 2 hh h /\ fixedDigits 2 mm mi /\ fixedDigits 2 ss s /\
    dateFromParts w d (m - 1) y h mi s = wn ++ txt ", " ++ dd ++ txt " " ++ mn ++ txt " " ++ yy ++ txt " " ++ hh ++ txt ":" ++ mm ++ txt ":" ++ ss ++ txt " GMT".
Proof.
  intros W M Hy Hd Hh Hm Hs. exists (dec2 d), (dec4 y), (dec2 h), (dec2 mi), (dec2 s). repeat (split; [split; [reflexivity|now (apply dec2_digits || apply dec4_digits)]|]).
  apply weekday_name in W. apply month_name in M. destruct M as (_ & _ & M & _). unfold dateFromParts. now rewrite W, M.
Qed.
