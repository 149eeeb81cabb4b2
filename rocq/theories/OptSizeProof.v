(** Sizes and times as text *)
From Coq Require Import Lia String.
From Verif Require Import Base Str RegNameModel ConvertModel NumModel NumSpec NumProof OptNameProof2 OptSizeModel OptSizeSpec.
Open Scope Z_scope.
Open Scope list_scope.

(** * Letters *)
Lemma lower_same s : forall u, (forall c, In c u -> ~ 65 <= c <= 90) -> (strLower s = u <-> sameLetters s u).
Proof.
  unfold strLower, sameLetters. induction s as [|a s IH]; intros u H; cbn [map].
  - split; [intros <-; constructor|intros F; inversion F; reflexivity].
  - split.
    + intros <-. constructor.
      * unfold sameLetter, lower. destruct (Z.leb_spec 65 a), (Z.leb_spec a 90); cbn [andb]; [right; lia|left; reflexivity..].
      * apply IH; [|reflexivity]. intros c Hc. apply H. right. exact Hc.
    + intros F. inversion F as [|a' b' s' u' S F' E1 E2]. subst u. f_equal; [|apply IH; [intros c Hc; apply H; right; exact Hc|exact F']].
      pose proof (H b' (or_introl eq_refl)) as N. unfold lower. destruct S as [S|[S1 S2]]; destruct (Z.leb_spec 65 a), (Z.leb_spec a 90); cbn [andb]; lia.
Qed.
Lemma lower_digits ds : Forall (fun c => 48 <= c <= 57) ds -> strLower ds = ds.
Proof. induction 1 as [|c ds H F IH]; [reflexivity|]. cbn. unfold strLower in IH. rewrite IH. unfold lower. replace (65 <=? c) with false by (symmetry; apply Z.leb_gt; lia). reflexivity. Qed.
Lemma lower_inv_digits s : Forall (fun c => 48 <= c <= 57) (strLower s) -> strLower s = s.
Proof.
  induction s as [|c s IH]; [reflexivity|]. cbn. intros F. inversion F as [|x l H F']; subst. unfold strLower in IH. rewrite (IH F'). f_equal. unfold lower in *. destruct (Z.leb_spec 65 c), (Z.leb_spec c 90); cbn [andb] in *; lia.
Qed.

Definition dec (c : Z) : Prop := 48 <= c <= 57.
Lemma digitIs_dec c d : digitIs c d -> d < 10 -> dec c.
Proof. intros H; inversion H; subst; unfold dec; lia. Qed.
Lemma digitsIs_dec ds n : digitsIs 10 ds n -> Forall dec ds /\ ds <> [].
Proof.
  induction 1 as [c d H L|s v c d H [IH N] H' L]; [split; [constructor; [exact (digitIs_dec c d H L)|constructor]|discriminate]|].
  split; [apply Forall_app; split; [exact IH|constructor; [exact (digitIs_dec c d H' L)|constructor]]|]. destruct s; discriminate.
Qed.
Lemma signed_digits ds n : signedText 10 ds n -> match ds with c :: _ => dec c | [] => False end -> digitsIs 10 ds n.
Proof.
  intros [(sg & p & d & Sg & [->|[P _]] & -> & D)|(p & d & w & [->|[P _]] & -> & D & ->)] H; try discriminate.
  - destruct Sg as [->| ->]; [exact D|]. cbn in H. unfold dec in H. lia.
  - cbn in H. unfold dec in H. lia.
Qed.
Lemma digits_signed ds n : digitsIs 10 ds n -> signedText 10 ds n.
Proof. intros D. left. exists [], [], ds. split; [left; reflexivity|]. split; [left; reflexivity|]. split; [reflexivity|exact D]. Qed.
Lemma cvt_kind s : (exists v, cvtZToInt64 10 s = Ok v) \/ cvtZToInt64 10 s = Err EFormat.
Proof. unfold cvtZToInt64, zToInt64Internal. destruct (strtoll 10 s) as [[v e] r]. destruct (zValid e s r); [left; eauto|right; reflexivity]. Qed.

(** * The expression *)
Lemma units_start u : In u sizeUnits -> exists c r, u = c :: r /\ In c [107; 109; 103; 116; 112; 98].
Proof. intros H. vm_compute in H. repeat (destruct H as [<-|H]; [eexists; eexists; split; [reflexivity|cbn; tauto]|]). destruct H. Qed.
Lemma unitsMatch_sound f : forall s, unitsMatch f s = true -> exists us, s = concat us /\ Forall (fun u => In u sizeUnits) us.
Proof.
  induction f as [|f IH]; intros s H.
  - destruct s; [|discriminate]. exists []. split; [reflexivity|constructor].
  - destruct s as [|c s]; [exists []; split; [reflexivity|constructor]|]. cbn [unitsMatch] in H. apply existsb_exists in H. destruct H as (u & Hu & H). apply Bool.andb_true_iff in H. destruct H as [B M].
    apply begins_spec in B. destruct B as (e & E). rewrite E in M. rewrite skipn_app, skipn_all, Nat.sub_diag in M. cbn [app skipn] in M. destruct (IH e M) as (us & -> & F).
    exists (u :: us). split; [exact E|constructor; assumption].
Qed.
Lemma unitsMatch_complete us : Forall (fun u => In u sizeUnits) us -> forall f, (List.length (concat us) <= f)%nat -> unitsMatch f (concat us) = true.
Proof.
  induction 1 as [|u us Hu F IH]; intros f L; [destruct f; reflexivity|]. cbn [concat] in *. destruct (units_start u Hu) as (c & r & -> & _). cbn [app List.length] in *.
  destruct f as [|f]; [lia|]. cbn [unitsMatch]. apply existsb_exists. exists (c :: r). split; [exact Hu|]. apply Bool.andb_true_iff. split; [apply begins_spec; exists (concat us); reflexivity|].
  change (c :: r ++ concat us) with ((c :: r) ++ concat us). rewrite skipn_app, skipn_all, Nat.sub_diag. cbn [app skipn]. apply IH. rewrite app_length in L. lia.
Qed.
Lemma isDec_spec c : isDec c = true <-> dec c.
Proof. unfold isDec, dec. rewrite Bool.andb_true_iff, !Z.leb_le. tauto. Qed.
Lemma dropDigits_spec s : exists ds, Forall dec ds /\ s = ds ++ dropDigits s.
Proof.
  induction s as [|c s (ds & F & E)]; [exists []; split; [constructor|reflexivity]|]. cbn [dropDigits]. destruct (isDec c) eqn:D.
  - exists (c :: ds). split; [constructor; [apply isDec_spec; exact D|exact F]|cbn [app]; f_equal; exact E].
  - exists []. split; [constructor|reflexivity].
Qed.
Lemma dropDigits_app ds us : Forall dec ds -> Forall (fun u => In u sizeUnits) us -> dropDigits (ds ++ concat us) = concat us.
Proof.
  intros D U. induction D as [|c ds H D IH]; cbn [app dropDigits].
  - destruct U as [|u us Hu U]; [reflexivity|]. cbn [concat]. destruct (units_start u Hu) as (c & r & -> & Hc). cbn [app dropDigits]. destruct (isDec c) eqn:E; [|reflexivity]. apply isDec_spec in E. exfalso. unfold dec in E. cbn in Hc. lia.
  - apply isDec_spec in H. rewrite H. exact IH.
Qed.
Lemma sizeMatch_spec s : sizeMatch s = true <-> exists ds us, s = ds ++ concat us /\ ds <> [] /\ Forall dec ds /\ Forall (fun u => In u sizeUnits) us.
Proof.
  unfold sizeMatch. destruct s as [|c r].
  - split; [discriminate|]. intros ([|x ds] & us & E & N & _); [congruence|discriminate E].
  - rewrite Bool.andb_true_iff, isDec_spec. split.
    + intros [D M]. destruct (unitsMatch_sound _ _ M) as (us & E & F). destruct (dropDigits_spec r) as (ds & FD & Er). rewrite E in Er. exists (c :: ds), us. split; [cbn [app]; f_equal; exact Er|]. split; [discriminate|]. split; [constructor; assumption|exact F].
    + intros ([|x ds] & us & E & N & FD & F); [congruence|]. injection E as <- ->. inversion FD as [|y l H FD']; subst. split; [exact H|]. rewrite (dropDigits_app ds us FD' F). apply unitsMatch_complete; [exact F|]. rewrite app_length. lia.
Qed.

(** * The value *)
Definition finish (pre : str) (m : Z) : res Z := let* n := cvtZToInt64 10 pre in if Z.quot int64Max m <? n then Err EFormat else Ok (n * m).
Definition body (s : str) : res Z :=
  let size := Z.of_nat (List.length s) in
  let* last := at' s (size - 1) in
  let* pos :=
    if last =? 98 then
      let* prev := at' s (size - 2) in
      Ok (if prev <=? 57 then size - 1 else if prev =? 105 then size - 3 else size - 2)
    else Ok (if 57 <? last then size - 1 else -1) in
  let* ms := (if pos =? -1 then Ok (1, s) else let* c := at' s pos in let* m := sizeQualifier c in Ok (m, firstn (Z.to_nat pos) s)) in
  let* n := cvtZToInt64 10 (snd ms) in
  if Z.quot int64Max (fst ms) <? n then Err EFormat else Ok (n * fst ms).
Lemma parse_body v : parseSize v = if sizeMatch (strLower v) then body (strLower v) else Err EFormat.
Proof. reflexivity. Qed.
Lemma at_app (pre t : str) k n : n = Z.of_nat (List.length pre) + Z.of_nat k -> at' (pre ++ t) n = Ok (nth k t 0).
Proof.
  intros ->. unfold at'. replace (_ <? 0) with false by (symmetry; apply Z.ltb_ge; lia). replace (Z.to_nat _) with (List.length pre + k)%nat by lia. rewrite nth_error_app2 by lia.
  replace (List.length pre + k - List.length pre)%nat with k by lia. destruct (nth_error t k) eqn:E; [f_equal; symmetry; apply nth_error_nth; exact E|]. apply nth_error_None in E. rewrite nth_overflow by exact E. reflexivity.
Qed.
Lemma first_app (pre t : str) n : n = Z.of_nat (List.length pre) -> firstn (Z.to_nat n) (pre ++ t) = pre.
Proof. intros ->. rewrite Nat2Z.id, <- (Nat.add_0_r (List.length pre)), firstn_app_2. apply app_nil_r. Qed.
Ltac len := rewrite ?app_length; cbn [List.length]; lia.
Lemma body_ib pre c m : 57 < c -> sizeQualifier c = Ok m -> body (pre ++ [c; 105; 98]) = finish pre m.
Proof.
  intros C Q. unfold body. cbv zeta. rewrite (at_app pre [c; 105; 98] 2) by len. cbn [nth bind]. change (98 =? 98) with true. cbv iota. rewrite (at_app pre [c; 105; 98] 1) by len. cbn [nth bind].
  change (105 <=? 57) with false. change (105 =? 105) with true. cbv iota. set (p := Z.of_nat _ - 3). assert (P : p = Z.of_nat (List.length pre)) by (unfold p; len). clearbody p. replace (p =? -1) with false by (symmetry; apply Z.eqb_neq; lia).
  rewrite (at_app pre [c; 105; 98] 0) by lia. cbn [nth bind]. rewrite Q. cbn [bind fst snd]. rewrite first_app by exact P. reflexivity.
Qed.
Lemma body_b pre c m : 57 < c -> c <> 105 -> sizeQualifier c = Ok m -> body (pre ++ [c; 98]) = finish pre m.
Proof.
  intros C I Q. unfold body. cbv zeta. rewrite (at_app pre [c; 98] 1) by len. cbn [nth bind]. change (98 =? 98) with true. cbv iota. rewrite (at_app pre [c; 98] 0) by len. cbn [nth bind].
  replace (c <=? 57) with false by (symmetry; apply Z.leb_gt; lia). replace (c =? 105) with false by (symmetry; apply Z.eqb_neq; lia). set (p := Z.of_nat _ - 2). assert (P : p = Z.of_nat (List.length pre)) by (unfold p; len). clearbody p. replace (p =? -1) with false by (symmetry; apply Z.eqb_neq; lia).
  rewrite (at_app pre [c; 98] 0) by lia. cbn [nth bind]. rewrite Q. cbn [bind fst snd]. rewrite first_app by exact P. reflexivity.
Qed.
Lemma body_c pre c m : 57 < c -> c <> 98 -> sizeQualifier c = Ok m -> body (pre ++ [c]) = finish pre m.
Proof.
  intros C I Q. unfold body. cbv zeta. rewrite (at_app pre [c] 0) by len. cbn [nth bind]. replace (c =? 98) with false by (symmetry; apply Z.eqb_neq; lia). cbn [bind]. replace (57 <? c) with true by (symmetry; apply Z.ltb_lt; lia).
  set (p := Z.of_nat _ - 1). assert (P : p = Z.of_nat (List.length pre)) by (unfold p; len). clearbody p. replace (p =? -1) with false by (symmetry; apply Z.eqb_neq; lia).
  rewrite (at_app pre [c] 0) by lia. cbn [nth bind]. rewrite Q. cbn [bind fst snd]. rewrite first_app by exact P. reflexivity.
Qed.
Lemma body_only_b pre d : d <= 57 -> body ((pre ++ [d]) ++ [98]) = finish (pre ++ [d]) 1.
Proof.
  intros C. unfold body. cbv zeta. rewrite (at_app (pre ++ [d]) [98] 0) by len. cbn [nth bind]. change (98 =? 98) with true. cbv iota.
  replace (at' ((pre ++ [d]) ++ [98]) (Z.of_nat (List.length ((pre ++ [d]) ++ [98])) - 2)) with (@Ok Z d) by (rewrite <- app_assoc; cbn [app]; symmetry; apply (at_app pre [d; 98] 0); len). cbn [bind].
  replace (d <=? 57) with true by (symmetry; apply Z.leb_le; lia). set (p := Z.of_nat _ - 1). assert (P : p = Z.of_nat (List.length (pre ++ [d]))) by (unfold p; len). clearbody p. replace (p =? -1) with false by (symmetry; apply Z.eqb_neq; lia).
  rewrite (at_app (pre ++ [d]) [98] 0) by lia. cbn [nth bind]. change (sizeQualifier 98) with (Ok 1). cbn [bind fst snd]. rewrite first_app by exact P. reflexivity.
Qed.
Lemma body_none pre d : d <= 57 -> body (pre ++ [d]) = finish (pre ++ [d]) 1.
Proof.
  intros C. unfold body. cbv zeta. rewrite (at_app pre [d] 0) by len. cbn [nth bind]. replace (d =? 98) with false by (symmetry; apply Z.eqb_neq; lia). cbn [bind]. replace (57 <? d) with false by (symmetry; apply Z.ltb_ge; lia). reflexivity.
Qed.

Lemma dec_last ds : ds <> [] -> Forall dec ds -> exists p d, ds = p ++ [d] /\ dec d.
Proof. intros N F. destruct (exists_last N) as (p & d & ->). exists p, d. split; [reflexivity|]. apply Forall_app in F. destruct F as [_ F]. inversion F; assumption. Qed.

(** Digits and a unit: the value is that of the digits times that of the unit *)
Lemma body_unit ds u m : ds <> [] -> Forall dec ds -> sizeUnit u m -> body (ds ++ u) = finish ds m.
Proof.
  intros N F [[-> ->]|[[-> ->]|[[-> ->]|(c & e & I & -> & U)]]]; destruct (dec_last ds N F) as (p & d & E & D); unfold dec in D.
  - rewrite app_nil_r, E. apply body_none. lia.
  - rewrite E. apply body_only_b. lia.
  - change (txt "bb") with [98; 98]. apply body_b; [lia|lia|reflexivity].
  - assert (Q : 57 < c /\ c <> 98 /\ c <> 105 /\ sizeQualifier c = Ok (1024 ^ e)) by (cbn in I; repeat (destruct I as [I|I]; [injection I as <- <-; repeat split; try lia; reflexivity|]); destruct I).
    destruct Q as (Q1 & Q2 & Q3 & Q4). destruct U as [->|[->| ->]]; [apply body_c; assumption|apply body_b; assumption|apply body_ib; assumption].
Qed.
Lemma unit_match u m : sizeUnit u m -> exists us, u = concat us /\ Forall (fun u => In u sizeUnits) us.
Proof.
  intros [[-> _]|[[-> _]|[[-> _]|(c & e & I & _ & U)]]].
  - exists []. split; [reflexivity|constructor].
  - exists [txt "b"]. split; [reflexivity|]. constructor; [vm_compute; tauto|constructor].
  - exists [txt "b"; txt "b"]. split; [reflexivity|]. repeat (constructor; [vm_compute; tauto|]). constructor.
  - exists [u]. split; [cbn; rewrite app_nil_r; reflexivity|]. constructor; [|constructor]. cbn in I. repeat (destruct I as [I|I]; [injection I as <- <-; destruct U as [->|[->| ->]]; vm_compute; tauto|]). destruct I.
Qed.
(** All texts that match: the value is that of what is before the last unit, times a unit *)
Lemma body_match s : sizeMatch s = true -> exists pre u m, s = pre ++ u /\ sizeUnit u m /\ body s = finish pre m /\ match pre with c :: _ => dec c | [] => False end.
Proof.
  intros M. apply sizeMatch_spec in M. destruct M as (ds & us & -> & N & D & F).
  assert (ST : forall x, match ds ++ x with c :: _ => dec c | [] => False end) by (intros x; destruct ds as [|c ds]; [congruence|inversion D; assumption]).
  destruct us as [|u0 us0].
  { exists ds, [], 1. assert (U : sizeUnit [] 1) by (left; split; reflexivity). split; [reflexivity|]. split; [exact U|]. split; [apply body_unit; assumption|]. specialize (ST []). rewrite app_nil_r in ST. exact ST. }
  assert (NE : u0 :: us0 <> []) by discriminate. destruct (exists_last NE) as (us & u & E). rewrite E in *. clear E NE u0 us0. apply Forall_app in F. destruct F as [F Fu]. inversion Fu as [|x l Hu _]; subst. clear Fu.
  rewrite concat_app. cbn [concat]. rewrite app_nil_r, app_assoc.
  assert (Q : u = txt "b" \/ exists c e, In (c, e) [(107, 1); (109, 2); (103, 3); (116, 4); (112, 5)] /\ (u = [c] \/ u = [c; 98] \/ u = [c; 105; 98])).
  { vm_compute in Hu. repeat (destruct Hu as [<-|Hu]; [first [left; reflexivity|right; first [exists 107, 1; split; [cbn; tauto|tauto]|exists 109, 2; split; [cbn; tauto|tauto]|exists 103, 3; split; [cbn; tauto|tauto]|exists 116, 4; split; [cbn; tauto|tauto]|exists 112, 5; split; [cbn; tauto|tauto]]]|]). destruct Hu. }
  destruct Q as [->|(c & e & I & U)].
  - destruct us as [|u1 us1].
    + exists ds, (txt "b"), 1. assert (U : sizeUnit (txt "b") 1) by (right; left; split; reflexivity). cbn [concat]. rewrite app_nil_r. split; [reflexivity|]. split; [exact U|]. split; [apply body_unit; assumption|]. specialize (ST []). rewrite app_nil_r in ST. exact ST.
    + assert (NE : u1 :: us1 <> []) by discriminate. destruct (exists_last NE) as (us & u & E). rewrite E in *. clear E NE u1 us1. apply Forall_app in F. destruct F as [F Fu]. inversion Fu as [|x l Hu' _]; subst. clear Fu.
      assert (Q : exists v c m, u = v ++ [c] /\ 57 < c /\ c <> 105 /\ sizeQualifier c = Ok m /\ sizeUnit [c; 98] m).
      { vm_compute in Hu'. repeat (destruct Hu' as [<-|Hu']; [first
          [exists [], 98, 1; split; [reflexivity|]; repeat split; try lia; right; right; left; split; reflexivity
          |exists [107; 105], 98, 1; split; [reflexivity|]; repeat split; try lia; right; right; left; split; reflexivity|exists [107], 98, 1; split; [reflexivity|]; repeat split; try lia; right; right; left; split; reflexivity
          |exists [109; 105], 98, 1; split; [reflexivity|]; repeat split; try lia; right; right; left; split; reflexivity|exists [109], 98, 1; split; [reflexivity|]; repeat split; try lia; right; right; left; split; reflexivity
          |exists [103; 105], 98, 1; split; [reflexivity|]; repeat split; try lia; right; right; left; split; reflexivity|exists [103], 98, 1; split; [reflexivity|]; repeat split; try lia; right; right; left; split; reflexivity
          |exists [116; 105], 98, 1; split; [reflexivity|]; repeat split; try lia; right; right; left; split; reflexivity|exists [116], 98, 1; split; [reflexivity|]; repeat split; try lia; right; right; left; split; reflexivity
          |exists [112; 105], 98, 1; split; [reflexivity|]; repeat split; try lia; right; right; left; split; reflexivity|exists [112], 98, 1; split; [reflexivity|]; repeat split; try lia; right; right; left; split; reflexivity
          |exists [], 107, (1024 ^ 1); split; [reflexivity|]; repeat split; try lia; right; right; right; exists 107, 1; split; [cbn; tauto|split; [reflexivity|tauto]]
          |exists [], 109, (1024 ^ 2); split; [reflexivity|]; repeat split; try lia; right; right; right; exists 109, 2; split; [cbn; tauto|split; [reflexivity|tauto]]
          |exists [], 103, (1024 ^ 3); split; [reflexivity|]; repeat split; try lia; right; right; right; exists 103, 3; split; [cbn; tauto|split; [reflexivity|tauto]]
          |exists [], 116, (1024 ^ 4); split; [reflexivity|]; repeat split; try lia; right; right; right; exists 116, 4; split; [cbn; tauto|split; [reflexivity|tauto]]
          |exists [], 112, (1024 ^ 5); split; [reflexivity|]; repeat split; try lia; right; right; right; exists 112, 5; split; [cbn; tauto|split; [reflexivity|tauto]]]|]). destruct Hu'. }
      destruct Q as (v & c & m & -> & Q1 & Q2 & Q3 & Q4). exists (ds ++ concat us ++ v), [c; 98], m. rewrite concat_app. cbn [concat]. rewrite app_nil_r.
      assert (EQ : (ds ++ concat us ++ v ++ [c]) ++ txt "b" = (ds ++ concat us ++ v) ++ [c; 98]) by (rewrite <- !app_assoc; reflexivity). rewrite EQ. split; [reflexivity|]. split; [exact Q4|]. split; [apply body_b; assumption|apply ST].
  - exists (ds ++ concat us), u, (1024 ^ e). split; [reflexivity|]. split; [right; right; right; exists c, e; auto|].
    assert (Q : 57 < c /\ c <> 98 /\ c <> 105 /\ sizeQualifier c = Ok (1024 ^ e)) by (cbn in I; repeat (destruct I as [I|I]; [injection I as <- <-; repeat split; try lia; reflexivity|]); destruct I).
    destruct Q as (Q1 & Q2 & Q3 & Q4). split; [|apply ST]. destruct U as [->|[->| ->]]; [apply body_c; assumption|apply body_b; assumption|apply body_ib; assumption].
Qed.
Lemma sizeUnit_pos u m : sizeUnit u m -> 1 <= m /\ (forall c, In c u -> ~ 65 <= c <= 90).
Proof.
  intros [[-> ->]|[[-> ->]|[[-> ->]|(c & e & I & -> & U)]]].
  - split; [lia|intros c []].
  - split; [lia|intros c H; vm_compute in H; lia].
  - split; [lia|intros c H; vm_compute in H; lia].
  - cbn in I. repeat (destruct I as [I|I]; [injection I as <- <-; split; [vm_compute; discriminate|]; destruct U as [->|[->| ->]]; intros c Hc; cbn in Hc; lia|]). destruct I.
Qed.
Lemma finish_spec pre m v : 1 <= m -> match pre with c :: _ => dec c | [] => False end -> (finish pre m = Ok v <-> exists n, digitsIs 10 pre n /\ v = n * m /\ v < two63).
Proof.
  intros Hm S. unfold finish. assert (B : 2 <= 10 <= 16) by lia. split.
  - destruct (cvtZToInt64 10 pre) as [n| |] eqn:E; cbn [bind]; try discriminate. apply (cvtZToInt64_spec 10 B) in E. destruct E as [E1 E2]. destruct (Z.ltb_spec (Z.quot int64Max m) n) as [L|L]; [discriminate|]. intros [= <-].
    exists n. split; [apply signed_digits; assumption|]. split; [reflexivity|]. unfold int64Max in L. rewrite Z.quot_div_nonneg in L by lia. pose proof (Z.mul_div_le 9223372036854775807 m ltac:(lia)). unfold two63. nia.
  - intros (n & D & -> & L). pose proof (digitsIs_nonneg 10 B pre n D) as P. assert (E : cvtZToInt64 10 pre = Ok n) by (apply (cvtZToInt64_spec 10 B); split; [apply digits_signed; exact D|unfold two63 in *; nia]). rewrite E. cbn [bind].
    replace (Z.quot int64Max m <? n) with false; [reflexivity|]. symmetry. apply Z.ltb_ge. unfold int64Max, two63 in *. rewrite Z.quot_div_nonneg by lia. apply Z.div_le_lower_bound; lia.
Qed.

Theorem parseSize_spec s v : parseSize s = Ok v <-> sizeText s v /\ v < two63.
Proof.
  rewrite parse_body. split.
  - destruct (sizeMatch (strLower s)) eqn:M; [|discriminate]. destruct (body_match _ M) as (pre & u & m & E & U & -> & S). destruct (sizeUnit_pos u m U) as [Pm Pu]. rewrite finish_spec by assumption. intros (n & D & V & L). split; [|exact L].
    unfold strLower in E. assert (LP : List.length pre = List.length (firstn (List.length pre) s)) by (apply (f_equal (@List.length Z)) in E; rewrite map_length, app_length in E; rewrite firstn_length; lia).
    rewrite <- (firstn_skipn (List.length pre) s), map_app in E.
    assert (E1 : map lower (firstn (List.length pre) s) = pre /\ map lower (skipn (List.length pre) s) = u).
    { apply (f_equal (fun l => (firstn (List.length pre) l, skipn (List.length pre) l))) in E. replace (List.length pre) with (List.length (map lower (firstn (List.length pre) s))) in E at 1 4 by (rewrite map_length; lia).
      injection E as E1 E2. split.
      - rewrite <- (Nat.add_0_r (List.length (map _ _))), firstn_app_2, app_nil_r in E1. rewrite E1. rewrite <- (Nat.add_0_r (List.length pre)), firstn_app_2. apply app_nil_r.
      - rewrite skipn_app, skipn_all, Nat.sub_diag in E2. cbn [app skipn] in E2. rewrite E2. rewrite skipn_app, skipn_all, Nat.sub_diag. reflexivity. }
    destruct E1 as [E1 E2]. destruct (digitsIs_dec pre n D) as [FD _]. exists pre, u, (skipn (List.length pre) s), n, m.
    assert (E3 : firstn (List.length pre) s = pre) by (transitivity (strLower (firstn (List.length pre) s)); [symmetry; apply lower_inv_digits; unfold strLower; rewrite E1; exact FD|exact E1]).
    split; [rewrite <- E3 at 1; symmetry; apply firstn_skipn|]. split; [exact D|]. split; [apply lower_same; assumption|]. split; assumption.
  - intros ((ds & u & us & n & m & -> & D & SL & U & ->) & L). destruct (digitsIs_dec ds n D) as [FD ND]. destruct (sizeUnit_pos u m U) as [Pm Pu].
    assert (E : strLower (ds ++ us) = ds ++ u) by (unfold strLower; rewrite map_app; f_equal; [apply lower_digits; exact FD|apply lower_same; assumption]). rewrite E.
    destruct (unit_match u m U) as (ul & EU & FU). replace (sizeMatch (ds ++ u)) with true by (symmetry; apply sizeMatch_spec; exists ds, ul; rewrite EU; auto).
    rewrite (body_unit ds u m ND FD U). apply finish_spec; [exact Pm| |exists n; auto]. destruct ds; [congruence|inversion FD; assumption].
Qed.
Theorem parseSize_kind s : (exists v, parseSize s = Ok v) \/ parseSize s = Err EFormat.
Proof.
  rewrite parse_body. destruct (sizeMatch (strLower s)) eqn:M; [|right; reflexivity]. destruct (body_match _ M) as (pre & u & m & E & U & -> & S). unfold finish.
  destruct (cvt_kind pre) as [[n ->]| ->]; cbn [bind]; [|right; reflexivity]. destruct (_ <? n); [right; reflexivity|left; eauto].
Qed.
