(** Proofs for escapes, queries and dates. *)
From Verif Require Import Base Str ConvertModel NumModel NumSpec NumProof LsnModel RegNameModel TimeModel TimeSpec TimeProof JsonModel SpoolModel HttpModel HttpSpec HttpProof HttpProof2 HttpProof4 UriModel UriSpec.
From Coq Require Import String List Sorted Permutation.
Open Scope Z_scope. Open Scope list_scope.

(** * Escapes *)
Lemma verbatim_spec path c : verbatim path c = true <-> unreserved c \/ (path = true /\ c = 47).
Proof.
  unfold verbatim, unreserved. change (txt "-._~") with [45; 46; 95; 126]. cbn [In]. rewrite !orb_true_iff, !andb_true_iff, !Z.leb_le, !Z.eqb_eq. destruct path; intuition (lia || congruence).
Qed.
Lemma hexUp_in d : 0 <= d < 16 -> In (hexUp d) (txt "0123456789ABCDEF").
Proof. intros H. assert (In d [0;1;2;3;4;5;6;7;8;9;10;11;12;13;14;15]) as I by (cbn; lia). cbn in I. repeat (destruct I as [<-|I]; [vm_compute; tauto|]). destruct I. Qed.
Lemma hexUp_digit d : 0 <= d < 16 -> digitIs (hexUp d) d.
Proof. intros H. unfold hexUp. destruct (Z.ltb_spec d 10); constructor; lia. Qed.
Lemma byte_digits c : byte c -> digitsIs 16 [hexUp (c / 16); hexUp (c mod 16)] c.
Proof.
  intros B. unfold byte in B. assert (0 <= c / 16 < 16) by (split; [apply Z.div_pos; lia|apply Z.div_lt_upper_bound; lia]). assert (0 <= c mod 16 < 16) by (apply Z.mod_pos_bound; lia).
  rewrite (Z.div_mod c 16) at 3 by lia. rewrite (Z.mul_comm 16). apply (ds_snoc 16 [hexUp (c / 16)]); [constructor; [now apply hexUp_digit|lia]|now apply hexUp_digit|lia].
Qed.
Lemma encode_escaped path s : Forall byte s -> escaped path s (uriEncode path s).
Proof.
  induction 1 as [|c s B _ IH]; [constructor|]. unfold uriEncode. cbn [flat_map]. fold (uriEncode path s). destruct (verbatim path c) eqn:V; cbn [app].
  - constructor; [now apply verbatim_spec|exact IH].
  - assert (0 <= c / 16 < 16) by (unfold byte in B; split; [apply Z.div_pos; lia|apply Z.div_lt_upper_bound; lia]). assert (0 <= c mod 16 < 16) by (apply Z.mod_pos_bound; lia).
    constructor; [rewrite <- verbatim_spec; congruence|now apply hexUp_in|now apply hexUp_in|now apply byte_digits|exact IH].
Qed.
Lemma upper_digit h : In h (txt "0123456789ABCDEF") -> exists d, 0 <= d < 16 /\ h = hexUp d.
Proof. intros I. change (txt "0123456789ABCDEF") with [48;49;50;51;52;53;54;55;56;57;65;66;67;68;69;70] in I. cbn [In] in I. unfold hexUp.
  destruct (Z_lt_ge_dec h 60) as [L|L]; [exists (h - 48)|exists (h - 55)]; (split; [lia|]); [destruct (Z.ltb_spec (h - 48) 10)|destruct (Z.ltb_spec (h - 55) 10)]; lia. Qed.
Lemma digitIs_det c d e : digitIs c d -> digitIs c e -> d < 16 -> e < 16 -> d = e.
Proof. intros A B _ _. remember c as c2 eqn:E in B. destruct A, B; lia. Qed.
Lemma two_digits h l c : digitsIs 16 [h; l] c -> exists x y, digitIs h x /\ digitIs l y /\ 0 <= x < 16 /\ 0 <= y < 16 /\ c = x * 16 + y.
Proof.
  intros H. inversion H as [|s v c0 d D1 D2 L E]. destruct s as [|h0 s]; [discriminate|]. injection E as -> E. destruct s as [|z s]; [|destruct s; discriminate]. injection E as ->.
  inversion D1 as [c1 d1 D L1 E1|s1 v1 c1 d1 D3 _ _ E1]; [|destruct s1 as [|? [|? ?]]; [inversion D3; match goal with X : ?a ++ [_] = [] |- _ => destruct a; discriminate end|discriminate..]].
  subst. exists v, d. repeat split; auto; try (destruct D; lia); destruct D2; lia.
Qed.
Lemma hexUp_inj d e : 0 <= d < 16 -> 0 <= e < 16 -> hexUp d = hexUp e -> d = e.
Proof. unfold hexUp. destruct (Z.ltb_spec d 10), (Z.ltb_spec e 10); lia. Qed.
Lemma escaped_unique path s t : escaped path s t -> forall t2, escaped path s t2 -> t = t2.
Proof.
  induction 1 as [|c s t U H IH|c h l s t U Hh Hl D H IH]; intros t2 H2; inversion H2; subst; try contradiction; auto; [f_equal; auto|].
  apply two_digits in D. match goal with X : digitsIs 16 [?a; ?b] c |- _ => apply two_digits in X; destruct X as (x2 & y2 & DX & DY & RX & RY & EC) end.
  destruct D as (x & y & D1 & D2 & R1 & R2 & E). assert (x = x2) by lia. assert (y = y2) by lia. subst x2 y2.
  repeat match goal with X : In ?a (txt "0123456789ABCDEF") |- _ => apply upper_digit in X; let d := fresh "d" in let R := fresh "R" in destruct X as (d & R & ->) end.
  f_equal. f_equal; [|f_equal; auto]; f_equal.
  - transitivity x; [|symmetry]; (eapply digitIs_det; [apply hexUp_digit; eassumption|eassumption|lia..]).
  - transitivity y; [|symmetry]; (eapply digitIs_det; [apply hexUp_digit; eassumption|eassumption|lia..]).
Qed.
Lemma escaped_decoded path s t : escaped path s t -> decoded t s.
Proof.
  induction 1 as [|c s t U H IH|c h l s t U Hh Hl D H IH]; [constructor| |].
  - constructor; [|exact IH]. intros ->. unfold unreserved in U. change (txt "-._~") with [45; 46; 95; 126] in U. cbn [In] in U. lia.
  - apply (de_esc h l [h; l]); [|exists [], [], [h; l]; repeat split; auto; now left|exact IH].
    split; [|now left]. apply upper_digit in Hh. apply upper_digit in Hl. destruct Hh as (x & Rx & ->), Hl as (y & Ry & ->). unfold hexUp. cbn [In].
    destruct (Z.ltb_spec x 10), (Z.ltb_spec y 10); lia.
Qed.
Lemma two_bound n v a b : zText [a; b] n -> unsignedText 16 n v -> 0 <= v < 256.
Proof.
  intros Zt (sg & p & ds & _ & _ & E & D). assert (L : (length n <= 2)%nat) by (destruct Zt as (_ & [<-|(x & K)]); [cbn; lia|apply (f_equal (@length Z)) in K; rewrite app_length in K; cbn in K; lia]).
  subst n. rewrite !app_length in L. assert (L2 : (length ds <= 2)%nat) by lia. clear - D L2. assert (G : 0 <= v < 16 ^ Z.of_nat (length ds)).
  { induction D as [c d D L|s v c d D1 IH D L]; [cbn; destruct D; lia|]. rewrite app_length in *. cbn [length] in *. rewrite Nat2Z.inj_add, Z.pow_add_r by lia. change (16 ^ Z.of_nat 1) with 16.
    assert (0 <= v < 16 ^ Z.of_nat (length s)) by (apply IH; lia). destruct D; nia. }
  assert (16 ^ Z.of_nat (length ds) <= 16 ^ 2) by (apply Z.pow_le_mono_r; lia). lia.
Qed.
Lemma decode_spec t : forall s, uriDecode t = Ok s <-> decoded t s.
Proof.
  assert (G : forall n t, (length t <= n)%nat -> forall s, uriDecode t = Ok s <-> decoded t s); [|eauto]. clear t.
  induction n as [|n IH]; intros t L s.
  - destruct t; [|cbn in L; lia]. cbn. split; [intros [= <-]; constructor|]. intros H. inversion H. reflexivity.
  - destruct t as [|c r]; [cbn; split; [intros [= <-]; constructor|]; intros H; inversion H; reflexivity|]. cbn [uriDecode]. cbn [length] in L. destruct (Z.eqb_spec c 37) as [->|C].
    + destruct r as [|a [|b r]]; [split; [discriminate|]; intros H; inversion H; congruence|split; [discriminate|]; intros H; inversion H; congruence|]. cbn [length] in L. split.
      * destruct (cvtZToUInt 16 (cz [a; b])) as [v| |] eqn:V; [|discriminate..]. cbn [bind]. destruct (uriDecode r) as [u| |] eqn:D; [|discriminate..]. cbn [bind]. intros [= <-].
        apply IH in D; [|lia]. apply cvtZToUInt_spec in V; [|lia]. econstructor; [apply zText_cz; reflexivity|apply V|exact D].
      * intros H. inversion H as [|c0 t s0 C D|a0 b0 n0 v t s0 Zt U D]; subst; [congruence|]. pose proof (two_bound _ _ _ _ Zt U) as B. apply zText_cz in Zt. rewrite Zt.
        rewrite (proj2 (cvtZToUInt_spec 16 ltac:(lia) n0 v)) by (split; [exact U|unfold two32; lia]). cbn [bind]. apply IH in D; [|lia]. rewrite D. reflexivity.
    + split.
      * destruct (uriDecode r) as [u| |] eqn:D; [|discriminate..]. cbn [bind]. intros [= <-]. apply IH in D; [|lia]. now constructor.
      * intros H. inversion H as [|c0 t s0 C0 D|]; subst; [|congruence]. apply IH in D; [|lia]. rewrite D. reflexivity.
Qed.
Lemma cvtUInt_err base s : (exists v, cvtZToUInt base s = Ok v) \/ cvtZToUInt base s = Err EFormat.
Proof. unfold cvtZToUInt, zToUInt64Internal. destruct (strtoull base s) as [[v e] r]. destruct (zValid e s r); cbn [bind]; [|auto]. destruct (_ || _)%bool; eauto. Qed.
Lemma decode_err t : (exists s, uriDecode t = Ok s) \/ uriDecode t = Err EFormat.
Proof.
  assert (G : forall n t, (length t <= n)%nat -> (exists s, uriDecode t = Ok s) \/ uriDecode t = Err EFormat); [|eauto]. clear t.
  induction n as [|n IH]; intros t L; [destruct t; [cbn; eauto|cbn in L; lia]|]. destruct t as [|c r]; [cbn; eauto|]. cbn [uriDecode length] in *. destruct (c =? 37).
  - destruct r as [|a [|b r]]; [now right..|]. cbn [length] in L. destruct (cvtUInt_err 16 (cz [a; b])) as [(v & ->)| ->]; cbn [bind]; [|now right].
    destruct (IH r ltac:(lia)) as [(s & ->)| ->]; cbn [bind]; eauto.
  - destruct (IH r ltac:(lia)) as [(s & ->)| ->]; cbn [bind]; eauto.
Qed.
(** Characters in an escaped text *)
Definition inEscaped (path : bool) (c : Z) : Prop := unreserved c \/ c = 37 \/ (path = true /\ c = 47).
Lemma escaped_chars path s t : escaped path s t -> Forall (inEscaped path) t.
Proof.
  assert (HX : forall h, In h (txt "0123456789ABCDEF") -> inEscaped path h).
  { intros h I. left. change (txt "0123456789ABCDEF") with [48;49;50;51;52;53;54;55;56;57;65;66;67;68;69;70] in I. cbn [In] in I. unfold unreserved. lia. }
  induction 1 as [|c s t U H IH|c h l s t U Hh Hl D H IH]; [constructor| |].
  - constructor; [unfold inEscaped; tauto|exact IH].
  - constructor; [right; now left|]. constructor; [auto|]. constructor; auto.
Qed.
