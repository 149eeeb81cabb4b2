From Verif Require Import Base Str NumSpec JsonModel JsonSpec JsonProof JsonProof3 JsonProof4 JsonProof5 JsonProof7 IniModel InfoModel InfoSpec IniProof InfoProof InfoProof2.
From Coq Require Import Sorting.Sorted.
Open Scope Z_scope.

Lemma sumsFrom_app a : forall last b, sumsFrom last (a ++ b) = sumsFrom last a ++ sumsFrom (lastFrom last a) b.
Proof. induction a as [|[[s k] v] a IH]; intros last b; [reflexivity|]. cbn [app sumsFrom]. now rewrite IH, lastFrom_cons, <- app_assoc. Qed.
Lemma lastFrom_app a : forall last b, lastFrom last (a ++ b) = lastFrom (lastFrom last a) b.
Proof. induction a as [|[[s k] v] a IH]; intros last b; [reflexivity|]. cbn [app]. now rewrite !lastFrom_cons. Qed.
Lemma unlines_in l ls : In l ls -> exists a c, unlines ls = a ++ l ++ c.
Proof.
  intros H. apply in_split in H as (x & y & ->). exists (unlines x), (10 :: unlines y). rewrite unlines_app. cbn [unlines flat_map]. fold (unlines y). now rewrite <- app_assoc.
Qed.
Lemma value_no10 v : valueText v -> ~ In 10 v. Proof. intros (x & _ & _ & H). exact H. Qed.
Lemma kv_no10 k v : ~ In 10 k -> ~ In 10 v -> ~ In 10 (k ++ 61 :: v).
Proof. intros H1 H2 H. apply in_app_or in H as [H|[H|H]]; [auto|discriminate|auto]. Qed.
Lemma sec_no10 s : ~ In 10 s -> ~ In 10 (91 :: s ++ [93]).
Proof. intros H1 [H|H]; [discriminate|]. apply in_app_or in H as [H|[H|[]]]; [auto|discriminate]. Qed.
Lemma linesFrom_no10 l : forall last, Forall goodEntry l -> Forall (fun x => ~ In 10 x) (linesFrom last l).
Proof.
  induction l as [|[[s k] v] l IH]; intros last H; [constructor|]. inversion H as [|? ? (H1 & H2 & H3 & H4 & H5 & _) Hl]; subst. cbn [fst snd] in *. cbn [linesFrom].
  apply Forall_app. split; [|constructor; [apply kv_no10; [exact H4|now apply value_no10]|now apply IH]].
  destruct (_ || _); [|constructor]. apply Forall_app. split; [destruct last; repeat constructor; auto|]. constructor; [now apply sec_no10|constructor].
Qed.
Lemma good_flatten data : goodData data -> Forall goodEntry (flatten data) /\ Forall (fun e : entry => fst (fst e) <> sBackrest /\ fst (fst e) <> sCipher) (flatten data).
Proof.
  intros [_ H]. split; apply Forall_forall; intros e He; apply in_flat_map in He as (p & Hp & He); apply in_map_iff in He as (q & <- & Hq); rewrite Forall_forall in H; apply H in Hp; destruct Hp as (A & B & C & E & F).
  - rewrite Forall_forall in F. split; [exact A|]. split; [exact B|]. exact (F q Hq).
  - split; [exact C|exact E].
Qed.
Lemma good_key k s : k <> [] -> ~ In 10 k -> ~ In 61 k -> valueText s -> goodKeyValue k s.
Proof. intros H1 H2 H3 H4. split; [exact H1|]. split; [exact H2|]. split; [exact H4|now left]. Qed.
Lemma value5 : valueText [53].
Proof. exists (JUInt 5). split; [|split; [exact I|cbn; lia]]. apply g_uint; [|cbn; lia|lia]. change 53 with (48 + 5). apply ds_one; [constructor; lia|lia]. Qed.
Ltac noneIn := let H := fresh in intros H; cbn in H; lia.
Lemma good_format : goodEntry (sBackrest, kFormat, [53]).
Proof. split; [discriminate|]. split; [noneIn|]. apply good_key; [discriminate|noneIn|noneIn|apply value5]. Qed.
Lemma good_version x : goodEntry (sBackrest, kVersion, jsonQuote x).
Proof. split; [discriminate|]. split; [noneIn|]. apply good_key; [discriminate|noneIn|noneIn|apply quote_value]. Qed.
Lemma good_cipher x : goodEntry (sCipher, kCipherPass, jsonQuote x).
Proof. split; [discriminate|]. split; [noneIn|]. apply good_key; [discriminate|noneIn|noneIn|apply quote_value]. Qed.
Lemma good_checksum x : goodEntry (sBackrest, kChecksum, jsonQuote x).
Proof. split; [discriminate|]. split; [noneIn|]. apply good_key; [discriminate|noneIn|noneIn|apply quote_value]. Qed.

Section Load.
  Variable D : Type.
  Variable cb : D -> str -> str -> str -> res D.
  Variable sha : str -> str.
  Variable bufSize : nat.
  Notation mk := (mkInfoLoad D).
  Lemma load_format last sum e v c d : infoLoadValue D cb (mk last sum e v c d) sBackrest kFormat [53] = Ok (mk sBackrest (sum ++ sumAdd last sBackrest kFormat [53]) e v c d).
  Proof. reflexivity. Qed.
  Lemma load_version last sum e v c d x : infoLoadValue D cb (mk last sum e v c d) sBackrest kVersion (jsonQuote x) =
    Ok (mk sBackrest (sum ++ sumAdd last sBackrest kVersion (jsonQuote x)) e (Some x) c d).
  Proof.
    unfold infoLoadValue. rewrite strEqb_refl. change (strEqb kVersion kChecksum) with false. change (strEqb kVersion kFormat) with false. rewrite strEqb_refl. cbn [andb]. rewrite quote_toVar. reflexivity.
  Qed.
  Lemma load_cipher last sum e v c d x : infoLoadValue D cb (mk last sum e v c d) sCipher kCipherPass (jsonQuote x) =
    Ok (mk sCipher (sum ++ sumAdd last sCipher kCipherPass (jsonQuote x)) e v (Some x) d).
  Proof.
    unfold infoLoadValue. change (strEqb sCipher sBackrest) with false. rewrite !strEqb_refl. cbn [andb]. rewrite quote_toVar. reflexivity.
  Qed.
  Lemma load_checksum last sum e v c d x : infoLoadValue D cb (mk last sum e v c d) sBackrest kChecksum (jsonQuote x) = Ok (mk last sum (Some x) v c d).
  Proof.
    unfold infoLoadValue. rewrite !strEqb_refl. change (strEqb kChecksum kFormat) with false. change (strEqb kChecksum kVersion) with false. cbn [andb]. rewrite quote_toVar. reflexivity.
  Qed.
  Lemma feed_app a b : forall d, feed cb d (a ++ b) = let* d := feed cb d a in feed cb d b.
  Proof. induction a as [|[[s k] v] a IH]; intros d; [reflexivity|]. cbn [app feed]. destruct (cb d s k v); cbn [bind]; auto. Qed.

  Theorem roundtrip version cipher data d : goodData data -> linesShorter bufSize (infoSave sha version cipher data) ->
    infoNewLoad D cb sha bufSize (infoSave sha version cipher data) d = let* d := feed cb d (flatten data) in Ok (Some version, cipher, d).
  Proof.
    intros Hd. destruct (infoSave_entries sha version cipher data Hd) as (d1 & d2 & d3 & Ef & E). cbv zeta in E. rewrite E. clear E.
    destruct (good_flatten data Hd) as [G1 G2]. rewrite Ef in G1, G2 |- *. apply Forall_app in G1 as [Ga G1]. apply Forall_app in G1 as [Gb Gc].
    apply Forall_app in G2 as [Na G2]. apply Forall_app in G2 as [Nb Nc].
    set (ci := match cipher with None => [] | Some p => [(sCipher, kCipherPass, jsonQuote p)] end).
    set (l := d1 ++ [(sBackrest, kFormat, [53]); (sBackrest, kVersion, jsonQuote version)] ++ d2 ++ ci ++ d3).
    assert (Gci : Forall goodEntry ci) by (unfold ci; destruct cipher; [constructor; [apply good_cipher|constructor]|constructor]).
    assert (Gl : Forall goodEntry l).
    { unfold l. apply Forall_app; split; [exact Ga|]. apply Forall_app; split; [|apply Forall_app; split; [exact Gb|]; apply Forall_app; split; [exact Gci|exact Gc]]. constructor; [apply good_format|constructor; [apply good_version|constructor]]. }
    set (sum := 123 :: sumsFrom [] l ++ sumEnd). set (lines := linesFrom [] l ++ _). intros Hs.
    destruct (good_checksum (sha sum)) as (C1 & C2 & C3).
    assert (N10 : Forall (fun x => ~ In 10 x) lines).
    { unfold lines. apply Forall_app. split; [now apply linesFrom_no10|]. constructor; [intros []|]. constructor; [apply sec_no10; noneIn|]. constructor; [|constructor].
      apply kv_no10; [noneIn|apply quote_no10]. }
    assert (Hok : Forall (okLine bufSize) lines).
    { apply Forall_forall. intros x Hx. rewrite Forall_forall in N10. destruct (unlines_in _ _ Hx) as (a & c & Ex). exact (Hs a x c Ex (N10 x Hx)). }
    unfold infoNewLoad. cbv zeta. rewrite iniLines_unlines by exact N10. unfold lines in *. apply Forall_app in Hok as [Hok1 Hok2].
    inversion Hok2 as [|? ? Hok3 Hok4]; subst. inversion Hok4 as [|? ? Hok5 Hok6]; subst. inversion Hok6 as [|? ? Hok7 _]; subst.
    set (tail := [[]; 91 :: sBackrest ++ [93]; kChecksum ++ 61 :: jsonQuote (sha sum)]) in *.
    assert (LL : forall x last, (length x <= length (linesFrom last x))%nat).
    { induction x as [|[[s k] v] x IH]; intros last; [cbn; lia|]. cbn [linesFrom]. rewrite app_length. cbn [length]. specialize (IH s). clear -IH. generalize dependent (linesFrom s x). intros y IH.
      match goal with |- context [(length ?q + _)%nat] => generalize (length q) end.
 intros n. rewrite Nat.add_comm. cbn [Nat.add]. apply le_n_S. apply Nat.le_trans with (1 := IH). apply Nat.le_add_r. }
    assert (Ef2 : exists f, S (length (linesFrom [] l ++ tail)) = (length l + S (S f))%nat).
    { exists (S (S (length (linesFrom [] l) - length l))). rewrite app_length. unfold tail. cbn [length]. specialize (LL l []). lia. }
    destruct Ef2 as (f & Ef2). rewrite Ef2.
    rewrite (loop_entries D cb sha bufSize l _ [] (S (S f)) tail Gl Hok1).
    assert (El : loadAll D cb (mk [] [123] None None None d) l =
      let* d := feed cb d (d1 ++ d2 ++ d3) in Ok (mk (lastFrom [] l) (123 :: sumsFrom [] l) None (Some version) cipher d)).
    { unfold l. rewrite loadAll_app, (load_data D cb d1 Na). cbn [ilData ilLast ilSum ilExpected ilVersion ilCipher]. rewrite feed_app.
      destruct (feed cb d d1) as [da| |]; cbn [bind]; [|reflexivity|reflexivity]. rewrite loadAll_app. cbn [loadAll]. rewrite load_format. cbn [bind]. rewrite load_version. cbn [bind].
      rewrite loadAll_app, (load_data D cb d2 Nb). cbn [ilData ilLast ilSum ilExpected ilVersion ilCipher]. rewrite feed_app.
      destruct (feed cb da d2) as [db| |]; cbn [bind]; [|reflexivity|reflexivity]. rewrite loadAll_app.
      assert (Ec : loadAll D cb (mk (lastFrom sBackrest d2)
         ((((([123] ++ sumsFrom [] d1) ++ sumAdd (lastFrom [] d1) sBackrest kFormat [53]) ++ sumAdd sBackrest sBackrest kVersion (jsonQuote version)) ++ sumsFrom sBackrest d2))
         None (Some version) None db) ci =
        Ok (mk (lastFrom (lastFrom sBackrest d2) ci) ((((([123] ++ sumsFrom [] d1) ++ sumAdd (lastFrom [] d1) sBackrest kFormat [53]) ++ sumAdd sBackrest sBackrest kVersion (jsonQuote version)) ++ sumsFrom sBackrest d2) ++ sumsFrom (lastFrom sBackrest d2) ci) None (Some version) cipher db)).
      { unfold ci. destruct cipher as [p|].
        - cbn [loadAll]. rewrite load_cipher. cbn [bind sumsFrom]. now rewrite app_nil_r.
        - cbn [loadAll sumsFrom]. now rewrite app_nil_r. }
      rewrite Ec. cbn [bind]. rewrite (load_data D cb d3 Nc). cbn [ilData ilLast ilSum ilExpected ilVersion ilCipher].
      destruct (feed cb db d3) as [dc| |]; cbn [bind]; [|reflexivity|reflexivity]. f_equal. 
      rewrite !lastFrom_app, !sumsFrom_app. cbn [sumsFrom]. repeat (rewrite lastFrom_app || rewrite lastFrom_cons). change (lastFrom sBackrest []) with sBackrest. rewrite <- !app_assoc. cbn [app]. reflexivity. }
    rewrite El. destruct (feed cb d (d1 ++ d2 ++ d3)) as [d'| |]; cbn [bind]; [|reflexivity|reflexivity].
    cbn [infoLoadLoop]. unfold tail. rewrite (next_blank D cb sha bufSize) by exact Hok3. rewrite (next_section D cb sha bufSize) by (try exact Hok5; discriminate).
    rewrite (next_kv D cb sha bufSize) by (try exact Hok7; try exact C3; discriminate). cbn [bind]. rewrite load_checksum. cbn [bind iniValueNext ilExpected ilSum ilVersion ilCipher ilData].
    unfold sum. cbn [app]. now rewrite strEqb_refl.
  Qed.
End Load.
