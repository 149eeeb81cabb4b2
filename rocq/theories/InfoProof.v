From Verif Require Import Base Str NumSpec JsonModel JsonSpec JsonProof JsonProof3 JsonProof4 JsonProof5 JsonProof7 IniModel InfoModel InfoSpec IniProof.
From Coq Require Import Sorting.Sorted.
Open Scope Z_scope.

Notation entry := (str * str * str)%type (only parsing).
(** * Saving a list of entries *)
Definition saveAll (st : infoSaveState) (l : list entry) : infoSaveState := fold_left (fun st e => infoSaveValue st (fst (fst e)) (snd (fst e)) (snd e)) l st.
Lemma saveAll_app st a b : saveAll st (a ++ b) = saveAll (saveAll st a) b. Proof. apply fold_left_app. Qed.
Fixpoint linesFrom (last : str) (l : list entry) : list str :=
  match l with
  | [] => []
  | (s, k, v) :: r =>
      (if match last with [] => true | _ => false end || negb (strEqb last s) then (match last with [] => [] | _ => [[]] end) ++ [91 :: s ++ [93]] else [])
      ++ (k ++ 61 :: v) :: linesFrom s r
  end.
Fixpoint sumsFrom (last : str) (l : list entry) : str :=
  match l with [] => [] | (s, k, v) :: r => sumAdd last s k v ++ sumsFrom s r end.
Definition lastFrom (last : str) (l : list entry) : str := match rev l with [] => last | (s, _, _) :: _ => s end.
Lemma lastFrom_cons last s k v r : lastFrom last ((s, k, v) :: r) = lastFrom s r.
Proof. unfold lastFrom. cbn [rev]. destruct (rev r) as [|[[a b] c] t]; reflexivity. Qed.
Lemma saveValue_last st s k v : isLast (infoSaveValue st s k v) = s.
Proof.
  unfold infoSaveValue. cbn [isLast]. destruct (isLast st) as [|c l]; [reflexivity|]. cbn [orb]. destruct (strEqb_spec (c :: l) s); cbn [negb]; auto.
Qed.
Lemma saveAll_ok l : forall st, isText (saveAll st l) = isText st ++ unlines (linesFrom (isLast st) l) /\ isSum (saveAll st l) = isSum st ++ sumsFrom (isLast st) l
  /\ isLast (saveAll st l) = lastFrom (isLast st) l.
Proof.
  induction l as [|[[s k] v] l IH]; intros st; [cbn; now rewrite !app_nil_r|]. change (saveAll st ((s, k, v) :: l)) with (saveAll (infoSaveValue st s k v) l).
  destruct (IH (infoSaveValue st s k v)) as (E1 & E2 & E3). rewrite saveValue_last in *. rewrite lastFrom_cons. split; [|split; [|exact E3]].
  - rewrite E1. unfold infoSaveValue. cbn [isText linesFrom]. rewrite unlines_app. rewrite <- !app_assoc. f_equal. cbn [unlines flat_map]. fold (unlines (linesFrom s l)).
    rewrite <- !app_assoc. cbn [app]. rewrite <- !app_assoc. cbn [app]. f_equal.
    destruct (isLast st) as [|c q]; cbn [orb]; [unfold unlines; cbn; now rewrite <- !app_assoc|]. destruct (strEqb (c :: q) s); [reflexivity|]. unfold unlines. cbn. now rewrite <- !app_assoc.
  - rewrite E2. unfold infoSaveValue. cbn [isSum sumsFrom]. now rewrite <- app_assoc.
Qed.
Lemma callback_inner s qs : forall st, fold_left (fun st (q : str * str) => infoSaveValue st s (fst q) (snd q)) qs st = saveAll st (map (fun q => (s, fst q, snd q)) qs).
Proof. induction qs as [|q qs IH]; intros st; [reflexivity|]. cbn. apply IH. Qed.

Definition sel (last : str) (next : option str) (p : str * list (str * str)) : bool :=
  (match last with [] => true | l => strLtb l (fst p) end) && match next with None => true | Some n => strLtb (fst p) n end.
Lemma filter_ext_in' {A} (f g : A -> bool) l : (forall a, In a l -> f a = g a) -> filter f l = filter g l.
Proof. apply filter_ext_in. Qed.
Lemma callback_ok data next : StronglySorted slt (map fst data) -> Forall (fun p => fst p <> []) data -> forall st,
  infoSaveCallback data next st = saveAll st (flatten (filter (sel (isLast st) next) data)).
Proof.
  induction data as [|p data IH]; intros Hs Hne st; [reflexivity|]. cbn in Hs. inversion Hs as [|? ? Hs' Hall]; subst. inversion Hne as [|? ? Hp Hne']; subst.
  change (infoSaveCallback (p :: data) next st) with (infoSaveCallback data next (if infoSaveSection st (fst p) next then fold_left (fun st (q : str * str) => infoSaveValue st (fst p) (fst q) (snd q)) (snd p) st else st)).
  rewrite (IH Hs' Hne'). replace (infoSaveSection st (fst p) next) with (sel (isLast st) next p) by (unfold sel, infoSaveSection; destruct (isLast st); reflexivity). cbn [filter]. destruct (sel (isLast st) next p) eqn:E; [|reflexivity].
  rewrite callback_inner. unfold flatten at 2. cbn [flat_map]. fold (flatten (filter (sel (isLast st) next) data)). rewrite saveAll_app. f_equal. f_equal.
  apply filter_ext_in. intros q Hq. destruct (saveAll_ok (map (fun q => (fst p, fst q, snd q)) (snd p)) st) as (_ & _ & ->).
  assert (Hlt : slt (fst p) (fst q)). { rewrite Forall_forall in Hall. apply Hall. now apply in_map. }
  assert (D : lastFrom (isLast st) (map (fun q => (fst p, fst q, snd q)) (snd p)) = isLast st \/ lastFrom (isLast st) (map (fun q => (fst p, fst q, snd q)) (snd p)) = fst p).
  { unfold lastFrom. rewrite <- map_rev. destruct (rev (snd p)); [now left|now right]. }
  destruct D as [-> | ->]; [reflexivity|]. unfold sel in *. assert (K : forall l : str, l <> [] -> (match l with [] => true | l' => strLtb l' (fst q) end) = strLtb l (fst q)) by (intros [|? ?]; [congruence|reflexivity]).
  rewrite (K (fst p)) by exact Hp. f_equal.
  apply andb_true_iff in E as [E1 _].
  destruct (strLtb_spec (fst p) (fst q)); [|contradiction].
  destruct (isLast st) as [|d ls]; [reflexivity|]. destruct (strLtb_spec (d :: ls) (fst p)); [|discriminate].
  destruct (strLtb_spec (d :: ls) (fst q)) as [|N]; [reflexivity|]. exfalso. apply N. eapply slt_trans; eassumption.
Qed.
Lemma filter_split_lt (b : str) (data : infoData) : StronglySorted slt (map fst data) -> Forall (fun p => fst p <> b) data ->
  data = filter (fun p => strLtb (fst p) b) data ++ filter (fun p => strLtb b (fst p)) data.
Proof.
  induction data as [|p data IH]; intros Hs Hne; [reflexivity|]. cbn in Hs. inversion Hs as [|? ? Hs' Hall]; subst. inversion Hne as [|? ? Hp Hne']; subst. cbn [filter].
  destruct (strLtb_spec (fst p) b) as [L|L].
  - destruct (strLtb_spec b (fst p)) as [L2|_]; [exfalso; exact (slt_asym _ _ L L2)|]. cbn [app]. f_equal. now apply IH.
  - destruct (slt_total (fst p) b) as [C|[C|C]]; [contradiction|contradiction|]. destruct (strLtb_spec b (fst p)) as [_|N]; [|contradiction].
    assert (A : filter (fun p => strLtb (fst p) b) data = []).
    { clear -Hall C. induction data as [|q data IH]; [reflexivity|]. cbn in *. inversion Hall; subst. destruct (strLtb_spec (fst q) b) as [L|_]; [|auto].
      exfalso. apply (slt_asym _ _ C). eapply slt_trans; eassumption. }
    assert (B : filter (fun p => strLtb b (fst p)) data = data).
    { clear -Hall C. induction data as [|q data IH]; [reflexivity|]. cbn in *. inversion Hall; subst. destruct (strLtb_spec b (fst q)) as [_|N]; [f_equal; auto|].
      exfalso. apply N. eapply slt_trans; eassumption. }
    rewrite A, B. reflexivity.
Qed.
Lemma filter_sel c l n (data : infoData) : filter (sel (c :: l) (Some n)) data = filter (fun p => strLtb (fst p) n) (filter (fun p => strLtb (c :: l) (fst p)) data).
Proof.
  induction data as [|q data IH]; [reflexivity|]. cbn [filter]. rewrite IH. unfold sel. destruct (strLtb (c :: l) (fst q)); cbn [andb filter]; reflexivity.
Qed.
Lemma flatten_app a b : flatten (a ++ b) = flatten a ++ flatten b. Proof. apply flat_map_app. Qed.

Lemma infoSave_entries sha version cipher data : goodData data -> exists d1 d2 d3,
  flatten data = d1 ++ d2 ++ d3 /\
  let l := d1 ++ [(sBackrest, kFormat, [53]); (sBackrest, kVersion, jsonQuote version)] ++ d2
           ++ match cipher with None => [] | Some p => [(sCipher, kCipherPass, jsonQuote p)] end ++ d3 in
  infoSave sha version cipher data =
    unlines (linesFrom [] l ++ [[]; 91 :: sBackrest ++ [93]; kChecksum ++ 61 :: jsonQuote (sha (123 :: sumsFrom [] l ++ sumEnd))]).
Proof.
  intros [Hs Hd].
  assert (Hne : Forall (fun p : str * list (str * str) => fst p <> []) data) by (eapply Forall_impl; [|exact Hd]; cbn; tauto).
  assert (Hb : Forall (fun p : str * list (str * str) => fst p <> sBackrest) data) by (eapply Forall_impl; [|exact Hd]; cbn; tauto).
  assert (Hc : Forall (fun p : str * list (str * str) => fst p <> sCipher) data) by (eapply Forall_impl; [|exact Hd]; cbn; tauto).
  set (A := filter (fun p : str * list (str * str) => strLtb (fst p) sBackrest) data). set (B := filter (fun p : str * list (str * str) => strLtb sBackrest (fst p)) data).
  assert (EAB : data = A ++ B) by (apply filter_split_lt; assumption).
  assert (Fin : forall l st, saveAll (mkInfoSave [] [123] []) l = st ->
    isText st ++ 10 :: 91 :: sBackrest ++ [93;10] ++ kChecksum ++ 61 :: jsonQuote (sha (isSum st ++ sumEnd)) ++ [10] =
    unlines (linesFrom [] l ++ [[]; 91 :: sBackrest ++ [93]; kChecksum ++ 61 :: jsonQuote (sha (123 :: sumsFrom [] l ++ sumEnd))])).
  { intros l st <-. destruct (saveAll_ok l (mkInfoSave [] [123] [])) as (E1 & E2 & _). cbn [isText isSum isLast app] in E1, E2. rewrite E1, E2, unlines_app. f_equal. cbn [app]. clear. generalize (sha (123 :: sumsFrom [] l ++ sumEnd)). intros x.
    unfold unlines. cbn [flat_map app]. rewrite <- !app_assoc. cbn [app]. reflexivity. }
  assert (S1 : saveAll (infoSaveCallback data (Some sBackrest) (mkInfoSave [] [123] [])) [(sBackrest, kFormat, [53]); (sBackrest, kVersion, jsonQuote version)] =
               saveAll (mkInfoSave [] [123] []) (flatten A ++ [(sBackrest, kFormat, [53]); (sBackrest, kVersion, jsonQuote version)])).
  { rewrite (callback_ok _ _ Hs Hne), saveAll_app. cbn [isLast]. reflexivity. }
  assert (L1 : forall l, lastFrom [] (l ++ [(sBackrest, kFormat, [53]); (sBackrest, kVersion, jsonQuote version)]) = sBackrest).
  { intros l. unfold lastFrom. rewrite rev_app_distr. reflexivity. }
  unfold infoSave. cbv zeta.
  change (infoSaveValue (infoSaveValue (infoSaveCallback data (Some sBackrest) (mkInfoSave [] [123] [])) sBackrest kFormat [53]) sBackrest kVersion (jsonQuote version))
    with (saveAll (infoSaveCallback data (Some sBackrest) (mkInfoSave [] [123] [])) [(sBackrest, kFormat, [53]); (sBackrest, kVersion, jsonQuote version)]).
  rewrite S1. set (st1 := saveAll (mkInfoSave [] [123] []) _). assert (E1 : isLast st1 = sBackrest).
  { unfold st1. destruct (saveAll_ok (flatten A ++ [(sBackrest, kFormat, [53]); (sBackrest, kVersion, jsonQuote version)]) (mkInfoSave [] [123] [])) as (_ & _ & ->). apply L1. }
  destruct cipher as [p|].
  - set (M := filter (fun p : str * list (str * str) => strLtb (fst p) sCipher) B). set (C := filter (fun p : str * list (str * str) => strLtb sCipher (fst p)) B).
    assert (EMC : B = M ++ C).
    { apply filter_split_lt.
      - rewrite EAB in Hs. rewrite map_app in Hs. clear -Hs. induction A as [|a A IH]; [exact Hs|]. cbn in Hs. inversion Hs; auto.
      - unfold B. clear -Hc. induction Hc; cbn; [constructor|]. destruct (strLtb _ _); [constructor|]; assumption. }
    exists (flatten A), (flatten M), (flatten C). split; [rewrite EAB at 1; rewrite EMC at 1; now rewrite !flatten_app|].
    set (st2 := infoSaveValue (infoSaveCallback data (Some sCipher) st1) sCipher kCipherPass (jsonQuote p)).
    assert (E2 : st2 = saveAll st1 (flatten M ++ [(sCipher, kCipherPass, jsonQuote p)])).
    { unfold st2. rewrite (callback_ok _ _ Hs Hne), E1, saveAll_app. cbn [saveAll fold_left fst snd]. do 3 f_equal. unfold M, B. clear.
      unfold sBackrest. apply filter_sel. }
    assert (L2 : isLast st2 = sCipher) by (unfold st2; apply saveValue_last).
    apply Fin. rewrite (callback_ok _ _ Hs Hne), L2, E2. unfold st1. rewrite <- !saveAll_app. f_equal. rewrite <- !app_assoc. do 5 f_equal. f_equal. unfold C, B. clear.
    induction data as [|q data IH]; [reflexivity|]. cbn [filter]. rewrite <- IH. assert (Es : sel sCipher None q = strLtb sCipher (fst q)) by (apply andb_true_r). rewrite Es.
    destruct (strLtb_spec sBackrest (fst q)); cbn [filter]; [reflexivity|].
    destruct (strLtb_spec sCipher (fst q)) as [K|]; [|reflexivity]. exfalso. apply n. eapply slt_trans; [|exact K]. reflexivity.
  - exists (flatten A), (flatten B), []. split; [rewrite app_nil_r, <- flatten_app; now rewrite <- EAB|]. cbn [app]. rewrite app_nil_r.
    apply Fin. rewrite (callback_ok _ _ Hs Hne), E1. unfold st1. rewrite <- saveAll_app. rewrite <- app_assoc. cbn [app].
    replace (filter (sel sBackrest None) data) with B; [reflexivity|]. apply filter_ext. intros q. symmetry. apply andb_true_r.
Qed.
