(** Proofs for HTTP responses. *)
From Verif Require Import Base Str ConvertModel NumModel NumSpec NumProof SpoolModel SpoolSpec SpoolProof TimelineProof RegNameModel OptSizeModel HttpModel HttpSpec.
From Coq Require Import String List.
Open Scope Z_scope. Open Scope list_scope.

(** * Text *)
Lemma idx_some c s i : idx c s = Some i <-> exists a b, s = a ++ c :: b /\ ~ In c a /\ length a = i.
Proof.
  revert i. induction s as [|x s IH]; intros i; cbn.
  - split; [discriminate|]. intros (a & b & E & _). destruct a; discriminate.
  - destruct (Z.eqb_spec x c) as [->|N].
    + split.
      * intros [= <-]. exists [], s. repeat split; auto.
      * intros (a & b & E & H & L). destruct a as [|y a]; [cbn in L; now subst|]. injection E as -> _. exfalso. apply H. now left.
    + split.
      * intros H. destruct (idx c s) as [j|] eqn:E; [|discriminate]. injection H as <-. destruct (proj1 (IH j) eq_refl) as (a & b & -> & H & L).
        exists (x :: a), b. repeat split; [|cbn; now f_equal]. intros [K|K]; [congruence|tauto].
      * intros (a & b & E & H & L). destruct a as [|y a]; [injection E as -> _; congruence|]. injection E as -> ->.
        destruct i as [|i]; [discriminate|]. injection L as L. rewrite (proj2 (IH i)); [reflexivity|]. exists a, b. repeat split; auto. intros K. apply H. now right.
Qed.
Lemma idx_none c s : idx c s = None <-> ~ In c s.
Proof.
  induction s as [|x s IH]; cbn; [tauto|]. destruct (Z.eqb_spec x c) as [->|N]; [split; [discriminate|tauto]|].
  destruct (idx c s) as [j|]; cbn.
  - split; [discriminate|]. intros H. exfalso. assert (A : ~ In c s) by tauto. apply IH in A. discriminate.
  - split; [|reflexivity]. intros _ [K|K]; [congruence|]. now apply (proj1 IH).
Qed.
Lemma cz_spec s : zText s (cz s).
Proof.
  induction s as [|x s (N & H)]; cbn; [split; [tauto|now left]|]. destruct (Z.eqb_spec x 0) as [->|X].
  - split; [tauto|]. right. now exists s.
  - split; [intros [K|K]; [congruence|tauto]|]. destruct H as [H|(y & H)]; [left; congruence|]. right. exists y. cbn. congruence.
Qed.
Lemma cz_app a b : ~ In 0 a -> cz (a ++ b) = a ++ cz b.
Proof. induction a as [|x a IH]; intros H; [reflexivity|]. cbn. destruct (Z.eqb_spec x 0) as [->|N]; [exfalso; apply H; now left|]. rewrite IH; [reflexivity|]. intros K. apply H. now right. Qed.
Lemma cz_id a : ~ In 0 a -> cz a = a.
Proof. intros H. rewrite <- (app_nil_r a) at 1. rewrite cz_app by exact H. cbn. apply app_nil_r. Qed.
Lemma zText_cz s t : zText s t <-> cz s = t.
Proof. split; [|intros <-; apply cz_spec]. intros (N & [->|(x & ->)]); [now apply cz_id|]. rewrite cz_app by exact N. cbn. apply app_nil_r. Qed.
Lemma chrZ_some s c i : strChrZ s c = Some i <-> exists a b, s = a ++ c :: b /\ ~ In c a /\ ~ In 0 a /\ c <> 0 /\ length a = i.
Proof.
  unfold strChrZ. rewrite idx_some. destruct (cz_spec s) as (Z0 & H). split.
  - intros (a & b & E & N & L). rewrite E in *. assert (A0 : ~ In 0 a) by (intros K; apply Z0, in_app_iff; now left).
    assert (C0 : c <> 0) by (intros ->; apply Z0, in_app_iff; right; now left).
    destruct H as [->|(x & ->)]; [now exists a, b|]. exists a, (b ++ 0 :: x). rewrite <- app_assoc. repeat split; auto.
  - intros (a & b & -> & N & A0 & C0 & L). exists a, (cz b). rewrite cz_app by exact A0. cbn. destruct (Z.eqb_spec c 0); [contradiction|]. auto.
Qed.
Lemma chrZ_none s c : strChrZ s c = None <-> ~ In c (cz s).
Proof. apply idx_none. Qed.
Lemma trim_trimmed s : exists a b, s = a ++ strTrim s ++ b /\ blank a /\ blank b /\ trimmed (strTrim s).
Proof. destruct (strTrim_spec s) as (a & b & E & A & B & F & L). exists a, b. repeat split; auto. Qed.
Lemma trim_is a t b : blank a -> blank b -> trimmed t -> strTrim (a ++ t ++ b) = t.
Proof. intros A B (F & L). now apply trim_unique. Qed.
Lemma trim_blank l : strTrim l = [] <-> blank l.
Proof.
  split.
  - intros E. destruct (trim_trimmed l) as (a & b & H & A & B & _). rewrite E in H. cbn in H. rewrite H. now apply Forall_app.
  - intros B. replace l with (l ++ [] ++ []) by (cbn; apply app_nil_r). apply (trim_is l [] []); [exact B|constructor|].
    split; intros c r E; [discriminate|destruct r; discriminate].
Qed.
Lemma trimmed_ends c d t : ~ white c -> ~ white d -> trimmed (c :: t ++ [d]).
Proof.
  intros C D. split; intros x r E; [now injection E as -> _|]. assert (E2 : (c :: t) ++ [d] = r ++ [x]) by exact E. apply app_inj_tail in E2. destruct E2 as (_ & ->). exact D.
Qed.

(** * Lines *)
Lemma skip_mid a (c : Z) b : skipn (S (length a)) (a ++ c :: b) = b.
Proof. induction a as [|x a IH]; [reflexivity|exact IH]. Qed.
Lemma first_mid a (b : str) : firstn (length a) (a ++ b) = a.
Proof. induction a as [|x a IH]; [destruct b; reflexivity|]. cbn. now rewrite IH. Qed.
Lemma skip_len a (b : str) : skipn (length a) (a ++ b) = b.
Proof. induction a as [|x a IH]; [reflexivity|exact IH]. Qed.
Lemma readLine_spec max s l r : readLine max s = Ok (l, r) <-> s = l ++ 10 :: r /\ lineOk max l.
Proof.
  unfold readLine, lineOk. split.
  - destruct (idx 10 s) as [i|] eqn:E; [|discriminate]. destruct (Nat.ltb_spec i max) as [L|L]; [|discriminate]. intros H.
    apply idx_some in E. destruct E as (a & b & -> & N & <-). rewrite skip_mid, first_mid in H. injection H as <- <-. auto.
  - intros (-> & N & L). assert (E : idx 10 (l ++ 10 :: r) = Some (length l)) by (apply idx_some; eauto). rewrite E.
    destruct (Nat.ltb_spec (length l) max); [|lia]. now rewrite skip_mid, first_mid.
Qed.
Lemma readLine_app max p q l r : readLine max p = Ok (l, r) -> readLine max (p ++ q) = Ok (l, r ++ q).
Proof. rewrite !readLine_spec. intros (-> & L). rewrite <- app_assoc. auto. Qed.
Lemma readLine_len max p l r : readLine max p = Ok (l, r) -> (length r < length p)%nat.
Proof. rewrite readLine_spec. intros (-> & _). rewrite app_length. cbn. lia. Qed.
Lemma readLine_err max s : (exists p, readLine max s = Ok p) \/ readLine max s = Err EFileRead.
Proof. unfold readLine. destruct (idx 10 s); [destruct (_ <? _)%nat|]; eauto. Qed.

(** * Numbers *)
Lemma hexdigit_char c d : digitIs c d -> d < 16 -> 48 <= c <= 57 \/ 65 <= c <= 70 \/ 97 <= c <= 102.
Proof. intros [x H|x H|x H] L; lia. Qed.
Definition numChar (c : Z) : Prop := 48 <= c <= 57 \/ 65 <= c <= 70 \/ 97 <= c <= 102 \/ c = 43 \/ c = 120 \/ c = 88.
Lemma digits_chars base s v : base <= 16 -> digitsIs base s v -> Forall numChar s /\ s <> [].
Proof.
  intros B. induction 1 as [c d D L|s v c d H (F & N) D L].
  - split; [|discriminate]. constructor; [|constructor]. apply hexdigit_char in D; [unfold numChar; tauto|lia].
  - split; [|destruct s; discriminate]. apply Forall_app. split; [exact F|]. constructor; [|constructor]. apply hexdigit_char in D; [unfold numChar; tauto|lia].
Qed.
Lemma unsigned_chars base s v : base <= 16 -> unsignedText base s v -> Forall numChar s /\ s <> [].
Proof.
  intros B (sg & p & ds & SG & P & -> & D). apply digits_chars in D; [|exact B]. destruct D as (F & N). split.
  - apply Forall_app. split; [destruct SG as [->| ->]; repeat constructor; unfold numChar; lia|]. apply Forall_app. split; [|exact F].
    destruct P as [->|(_ & [->| ->])]; repeat constructor; unfold numChar; lia.
  - destruct sg; [|discriminate]. destruct p; [exact N|discriminate].
Qed.
Lemma numChar_trimmed s : Forall numChar s -> trimmed s /\ ~ In 0 s /\ ~ In 59 s /\ ~ In 32 s /\ ~ In 10 s.
Proof.
  intros F. rewrite Forall_forall in F. assert (W : forall c, In c s -> ~ white c) by (intros c I K; apply F in I; unfold numChar, white in *; lia).
  repeat split; try (intros K; apply F in K; unfold numChar in K; lia).
  - intros c r ->. apply W. now left.
  - intros c r ->. apply W. apply in_app_iff. right. now left.
Qed.
Lemma cvt64_bound base s v : cvtZToUInt64 base s = Ok v -> 2 <= base <= 16 -> 0 <= v < 2 ^ 64.
Proof.
  intros H B. apply cvtZToUInt64_spec in H; [|lia]. destruct H as ((sg & p & ds & _ & _ & _ & D) & L). split; [|exact L]. clear - D B.
  induction D as [c d D L|s v c d _ IH D L]; destruct D; lia || nia.
Qed.
Lemma cvt64_err base s : (exists v, cvtZToUInt64 base s = Ok v) \/ cvtZToUInt64 base s = Err EFormat.
Proof. unfold cvtZToUInt64, zToUInt64Internal. destruct (strtoull base s) as [[v e] r]. destruct (zValid e s r); cbn; [|auto]. destruct (startsMinus s); eauto. Qed.
