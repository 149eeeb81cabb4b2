From Verif Require Import Base Str NumSpec JsonModel JsonSpec JsonProof JsonProof3 JsonProof4 JsonProof5 JsonProof7 IniModel InfoModel InfoSpec IniProof InfoProof.
From Coq Require Import Sorting.Sorted.
Open Scope Z_scope.

(** * Quoted strings *)
Lemma quote_gram s : jgram false (JStr s) (jsonQuote s). Proof. apply g_str, escape_chars. Qed.
Lemma quote_no10 s : ~ In 10 (jsonQuote s).
Proof.
  unfold jsonQuote. intros [H|H]; [discriminate|]. apply in_app_or in H as [H|[H|[]]]; [|discriminate]. apply in_flat_map in H as (c & _ & H). unfold jsonEscape in H.
  repeat (match goal with H : context [if ?b then _ else _] |- _ => destruct b eqn:? end; [cbn in H; lia|]). cbn in H. lia.
Qed.
Lemma quote_value s : valueText (jsonQuote s). Proof. exists (JStr s). split; [apply quote_gram|]. split; [exact I|apply quote_no10]. Qed.
Lemma quote_toVar s : jsonToVar (jsonQuote s) = Ok (JStr s).
Proof. pose proof (toVar_ok false (JStr s) (jsonQuote s) [] [] (quote_gram s) ltac:(constructor) I) as K. cbn [app] in K. now rewrite app_nil_r in K. Qed.

Section Load.
  Variable D : Type.
  Variable cb : D -> str -> str -> str -> res D.
  Variable sha : str -> str.
  Variable bufSize : nat.
  Notation state := (infoLoadState D).
  Notation loop := (infoLoadLoop D cb bufSize).
  Fixpoint loadAll (st : state) (l : list entry) : res state :=
    match l with [] => Ok st | (s, k, v) :: r => let* st := infoLoadValue D cb st s k v in loadAll st r end.
  Lemma loadAll_app a b : forall st, loadAll st (a ++ b) = let* st := loadAll st a in loadAll st b.
  Proof. induction a as [|[[s k] v] a IH]; intros st; [reflexivity|]. cbn [app loadAll]. destruct (infoLoadValue D cb st s k v); cbn [bind]; auto. Qed.

  Definition okLine (l : str) : Prop := (length l < bufSize)%nat.
  Lemma lineRead_ok l : okLine l -> lineRead bufSize l = Ok l.
  Proof. intros H. unfold lineRead, okLine in *. destruct (Nat.leb_spec bufSize (length l)); [lia|reflexivity]. Qed.
  Definition goodEntry (e : entry) : Prop := fst (fst e) <> [] /\ ~ In 10 (fst (fst e)) /\ goodKeyValue (snd (fst e)) (snd e).

  Lemma next_kv sec k v ls : sec <> [] -> goodKeyValue k v -> okLine (k ++ 61 :: v) ->
    iniValueNext bufSize true sec ((k ++ 61 :: v) :: ls) = Ok (Some (k, v), sec, ls).
  Proof.
    intros Hs (Hk & _ & Hv & Hd) Hl. cbn [iniValueNext]. rewrite lineRead_ok by exact Hl. cbn [bind].
    destruct (iniLine_kv sec k v Hs Hk Hv) as [-> |(_ & H1 & H2)]; [reflexivity|tauto].
  Qed.
  Lemma next_section sec s ls : s <> [] -> okLine (91 :: s ++ [93]) -> iniValueNext bufSize true sec ((91 :: s ++ [93]) :: ls) = iniValueNext bufSize true s ls.
  Proof. intros Hs Hl. cbn [iniValueNext]. rewrite lineRead_ok by exact Hl. cbn [bind]. now rewrite iniLine_section. Qed.
  Lemma next_blank sec ls : okLine [] -> iniValueNext bufSize true sec ([] :: ls) = iniValueNext bufSize true sec ls.
  Proof. intros H. cbn [iniValueNext]. rewrite lineRead_ok by exact H. reflexivity. Qed.

  Lemma loop_entries l : forall st sec f tail, Forall goodEntry l -> Forall okLine (linesFrom sec l) ->
    loop (length l + f) st sec (linesFrom sec l ++ tail) = let* st := loadAll st l in loop f st (lastFrom sec l) tail.
  Proof.
    induction l as [|[[s k] v] l IH]; intros st sec f tail Hg Hl; [reflexivity|]. inversion Hg as [|? ? (Hs & _ & Hkv) Hg']; subst. cbn [fst snd] in *.
    cbn [linesFrom] in *. apply Forall_app in Hl as [Hl1 Hl2]. inversion Hl2 as [|? ? Hl3 Hl4]; subst. rewrite lastFrom_cons. cbn [length Nat.add infoLoadLoop loadAll]. rewrite <- app_assoc.
    match goal with |- bind ?r _ = _ => assert (E : r = Ok (Some (k, v), s, linesFrom s l ++ tail)) end.
    { cbn [app]. assert (N : forall x, iniValueNext bufSize true x ((91 :: s ++ [93]) :: (k ++ 61 :: v) :: linesFrom s l ++ tail) = Ok (Some (k, v), s, linesFrom s l ++ tail) \/ ~ okLine (91 :: s ++ [93])).
      { intros x. destruct (Nat.lt_decidable (length (91 :: s ++ [93])) bufSize) as [K|K]; [left|now right]. rewrite next_section by assumption. now apply next_kv. }
      destruct sec as [|c sec]; cbn [orb app] in *.
      - inversion Hl1; subst. destruct (N []) as [K|K]; [exact K|contradiction].
      - destruct (strEqb_spec (c :: sec) s) as [<- |_]; cbn [negb app] in *; [now apply next_kv|]. inversion Hl1 as [|? ? Hb Hl5]; subst. inversion Hl5; subst.
        rewrite next_blank by exact Hb. destruct (N (c :: sec)) as [K|K]; [exact K|contradiction]. }
    rewrite E. cbn [bind]. destruct (infoLoadValue D cb st s k v) as [st'| |]; cbn [bind]; [|reflexivity|reflexivity]. now apply IH.
  Qed.

  (** The data entries go to the callback; the checksum text follows. *)
  Lemma load_data l : Forall (fun e : entry => fst (fst e) <> sBackrest /\ fst (fst e) <> sCipher) l -> forall st,
    loadAll st l = let* d := feed cb (ilData D st) l in
                   Ok (mkInfoLoad D (lastFrom (ilLast D st) l) (ilSum D st ++ sumsFrom (ilLast D st) l) (ilExpected D st) (ilVersion D st) (ilCipher D st) d).
  Proof.
    induction 1 as [|[[s k] v] l [H1 H2] Hl IH]; intros st; [cbn; rewrite app_nil_r; destruct st; reflexivity|]. cbn [fst snd] in *. cbn [loadAll feed].
    unfold infoLoadValue. destruct (strEqb_spec s sBackrest); [contradiction|]. destruct (strEqb_spec s sCipher); [contradiction|]. cbn [andb ilData ilLast ilSum ilExpected ilVersion ilCipher].
    destruct (cb (ilData D st) s k v) as [d| |]; cbn [bind]; [|reflexivity|reflexivity]. rewrite IH. cbn [ilData ilLast ilSum ilExpected ilVersion ilCipher].
    destruct (feed cb d l) as [d'| |]; cbn [bind]; [|reflexivity|reflexivity]. rewrite lastFrom_cons. cbn [sumsFrom]. now rewrite <- app_assoc.
  Qed.
End Load.
