(** [Debug for str] of the standard library. *)
From Coq Require Hexadecimal.
From Coq Require Import List NArith Bool Lia Arith String HexadecimalN.
From Coq.Strings Require Import Byte.
From Verif Require Import Bytes Lexer SpecUtf8 SpecDebug ShowInj.
Import ListNotations.
Open Scope nat_scope.
Open Scope list_scope.

(** ** The model: core::fmt, [impl Debug for str], and core::char::methods,
    [escape_debug].  [printable] is the Unicode table ([is_printable] and not
    [is_grapheme_extended]) of the release, a parameter; [zero] and [single] say
    whether the release writes NUL as [\0] and a single quote as [\'], which
    changed between releases. *)
Fixpoint hex_str (d : Hexadecimal.uint) : str :=
  match d with
  | Hexadecimal.Nil => []
  | Hexadecimal.D0 d => "0"%byte :: hex_str d | Hexadecimal.D1 d => "1"%byte :: hex_str d
  | Hexadecimal.D2 d => "2"%byte :: hex_str d | Hexadecimal.D3 d => "3"%byte :: hex_str d
  | Hexadecimal.D4 d => "4"%byte :: hex_str d | Hexadecimal.D5 d => "5"%byte :: hex_str d
  | Hexadecimal.D6 d => "6"%byte :: hex_str d | Hexadecimal.D7 d => "7"%byte :: hex_str d
  | Hexadecimal.D8 d => "8"%byte :: hex_str d | Hexadecimal.D9 d => "9"%byte :: hex_str d
  | Hexadecimal.Da d => "a"%byte :: hex_str d | Hexadecimal.Db d => "b"%byte :: hex_str d
  | Hexadecimal.Dc d => "c"%byte :: hex_str d | Hexadecimal.Dd d => "d"%byte :: hex_str d
  | Hexadecimal.De d => "e"%byte :: hex_str d | Hexadecimal.Df d => "f"%byte :: hex_str d
  end.
Definition backslash : byte := x5c.
Section Quote.
  Variables (printable : N -> bool) (zero single : bool).
  (** The second byte of a two-byte escape. *)
  Definition short (c : str) : option byte :=
    match c with
    | [x00] => if zero then Some "0"%byte else None
    | [x09] => Some "t"%byte | [x0d] => Some "r"%byte | [x0a] => Some "n"%byte
    | [x22] => Some x22 | [x5c] => Some x5c
    | [x27] => if single then Some x27 else None
    | _ => None
    end.
  Definition piece (code : N) (c : str) : str :=
    match short c with
    | Some b => [backslash; b]
    | None => if printable code then c else bs "\u{" ++ hex_str (N.to_hex_uint code) ++ bs "}"
    end.
  Fixpoint escape (fuel : nat) (s : str) : str :=
    match fuel with
    | 0 => []
    | S f => match decode_char s with
             | None => []
             | Some (code, len) => piece code (firstn len s) ++ escape f (skipn len s)
             end
    end.
  Definition std_quote (s : str) : str := [x22] ++ escape (List.length s) s ++ [x22].

  (** ** Characters *)
  Definition code_of (c : str) : N :=
    match c with
    | [a] => byte_val a
    | [a; b] => (byte_val a - 192) * 64 + (byte_val b - 128)
    | [a; b; c] => ((byte_val a - 224) * 64 + (byte_val b - 128)) * 64 + (byte_val c - 128)
    | [a; b; c; d] => (((byte_val a - 240) * 64 + (byte_val b - 128)) * 64 + (byte_val c - 128)) * 64 + (byte_val d - 128)
    | _ => 0
    end%N.
  Ltac consts := change (byte_val x00) with 0%N in *; change (byte_val x7f) with 127%N in *; change (byte_val x80) with 128%N in *; change (byte_val x8f) with 143%N in *;
    change (byte_val x90) with 144%N in *; change (byte_val x9f) with 159%N in *; change (byte_val xa0) with 160%N in *; change (byte_val xbf) with 191%N in *;
    change (byte_val xc2) with 194%N in *; change (byte_val xdf) with 223%N in *; change (byte_val xe0) with 224%N in *; change (byte_val xe1) with 225%N in *;
    change (byte_val xec) with 236%N in *; change (byte_val xed) with 237%N in *; change (byte_val xee) with 238%N in *; change (byte_val xef) with 239%N in *;
    change (byte_val xf0) with 240%N in *; change (byte_val xf1) with 241%N in *; change (byte_val xf3) with 243%N in *; change (byte_val xf4) with 244%N in *.
  Lemma decode_of c s : utf8_char c -> decode_char (c ++ s) = Some (code_of c, List.length c).
  Proof.
    intros H. destruct H; unfold tail_byte, between in *; consts; cbn [app]; unfold decode_char, is_continuation, cont_bits, byte_in; consts;
      repeat match goal with |- context [(?x <=? ?y)%N] =>
        first [replace (x <=? y)%N with true by (symmetry; apply N.leb_le; lia) | replace (x <=? y)%N with false by (symmetry; apply N.leb_gt; lia)] end;
      cbn [andb List.length code_of]; reflexivity.
  Qed.
  Lemma val_inj a b : byte_val a = byte_val b -> a = b.
  Proof. unfold byte_val. intros H. assert (X := Byte.of_to_N a). rewrite H, Byte.of_to_N in X. congruence. Qed.
  Lemma code_inj c c' : utf8_char c -> utf8_char c' -> code_of c = code_of c' -> c = c'.
  Proof.
    intros H H' E. destruct H, H'; unfold tail_byte, between in *; consts; cbn [code_of] in E; consts; try (exfalso; lia);
      repeat f_equal; try reflexivity; try (apply val_inj; consts; lia).
  Qed.
  Lemma char_tail_code c b r : utf8_char c -> c = b :: r -> r <> [] -> (128 <= byte_val b)%N.
  Proof. intros H E N. destruct H; injection E as <- <-; try (destruct N; reflexivity); unfold tail_byte, between in *; consts; lia. Qed.
  (** A character can be read off the start of a text. *)
  Lemma char_prefix c c' r r' : utf8_char c -> utf8_char c' -> c ++ r = c' ++ r' -> c = c' /\ r = r'.
  Proof.
    intros H H' E. assert (A := decode_of c r H). rewrite E, (decode_of c' r' H') in A. injection A as A B. symmetry in A. apply code_inj in A; auto. subst c'. split; [reflexivity|]. now apply app_inv_head in E.
  Qed.
  Lemma escape_cons c n s : utf8_char c -> escape (S n) (c ++ s) = piece (code_of c) c ++ escape n s.
  Proof.
    intros H. cbn [escape]. rewrite (decode_of _ _ H). rewrite firstn_app, Nat.sub_diag, firstn_all. cbn [firstn]. rewrite app_nil_r. f_equal. now rewrite skipn_app, Nat.sub_diag, skipn_all.
  Qed.
  Lemma escape_fuel n s : characters n s -> forall k, n <= k -> escape k s = escape n s.
  Proof.
    induction 1 as [|n c s Hc Hs IH]; intros k L.
    - destruct k; reflexivity.
    - destruct k as [|k]; [lia|]. rewrite !escape_cons by exact Hc. f_equal. apply IH. lia.
  Qed.
  Lemma chars_length n s : characters n s -> n <= List.length s.
  Proof. induction 1 as [|n c s Hc Hs IH]; [cbn; lia|]. rewrite app_length. destruct Hc; cbn [List.length]; lia. Qed.

  (** ** Escapes *)
  Lemma hex_inj d : forall d', hex_str d = hex_str d' -> d = d'.
  Proof. induction d; intros d' E; destruct d'; try discriminate E; try reflexivity; cbn [hex_str] in E; injection E as E; f_equal; auto. Qed.
  Definition hexit (b : byte) : bool := is_digit b || byte_in "a" "f" b.
  Lemma hex_digits d : forallb hexit (hex_str d) = true.
  Proof. induction d; cbn [hex_str forallb]; auto; rewrite IHd; reflexivity. Qed.
  Inductive piece_is (c : str) : str -> Prop :=
  | pi_short b : short c = Some b -> piece_is c [backslash; b]
  | pi_hex : piece_is c (backslash :: "u"%byte :: "{"%byte :: hex_str (N.to_hex_uint (code_of c)) ++ ["}"%byte])
  | pi_self : short c = None -> piece_is c c.
  Lemma piece_cases c : piece_is c (piece (code_of c) c).
  Proof. unfold piece. destruct (short c) as [b|] eqn:E; [now constructor|]. destruct (printable _); [now constructor|]. apply pi_hex. Qed.
  Ltac bytes_in := repeat match goal with x : byte |- _ => destruct x; try discriminate end.
  Lemma short_inv c b : short c = Some b -> exists a, c = [a] /\ In (a, b) [(x00, "0"); (x09, "t"); (x0d, "r"); (x0a, "n"); (x22, x22); (x5c, x5c); (x27, x27)]%byte.
  Proof.
    destruct c as [|a [|a2 c]]; cbn [short]; [discriminate| |destruct a; discriminate].
    intros E. exists a. split; [reflexivity|]. destruct a; cbn [short] in E; try discriminate E; try (destruct zero; try discriminate E); try (destruct single; try discriminate E); injection E as <-; cbn; tauto.
  Qed.
  Lemma short_not_u c : short c <> Some "u"%byte.
  Proof. intros E. apply short_inv in E as (a & _ & I). cbn [In] in I. repeat (destruct I as [I|I]; [discriminate I|]). exact I. Qed.
  Lemma short_same c c' b : short c = Some b -> short c' = Some b -> c = c'.
  Proof.
    intros E E'. apply short_inv in E as (a & -> & I). apply short_inv in E' as (a' & -> & I'). cbn [In] in I, I'.
    repeat (destruct I as [I|I]; [injection I as <- <-; repeat (destruct I' as [I'|I']; [injection I'; intros; subst; first [reflexivity|discriminate]|]); destruct I'|]). destruct I.
  Qed.
  Lemma char_head c : utf8_char c -> short c = None -> exists b r, c = b :: r /\ b <> backslash /\ b <> x22.
  Proof.
    intros H E. destruct c as [|b r]; [inversion H|]. exists b, r. split; [reflexivity|]. destruct r as [|b2 r].
    - split; intros X; rewrite X in E; discriminate E.
    - assert (L := char_tail_code _ _ _ H eq_refl ltac:(discriminate)). split; intros X; rewrite X in L; vm_compute in L; apply L; reflexivity.
  Qed.
  Lemma piece_prefix c c' r r' p p' : utf8_char c -> utf8_char c' -> piece_is c p -> piece_is c' p' -> p ++ r = p' ++ r' -> c = c' /\ r = r'.
  Proof.
    intros H H' Q Q' E. destruct Q as [b S1| |S1], Q' as [b' S1'| |S1']; cbn [app] in E.
    - injection E as <- ->. split; [|reflexivity]. eapply short_same; eauto.
    - exfalso. injection E as E _. subst b. now apply short_not_u in S1.
    - exfalso. destruct (char_head c' H' S1') as (x & t & -> & N & _). injection E as E _. apply N; congruence.
    - exfalso. injection E as E _. subst b'. now apply short_not_u in S1'.
    - injection E as E. rewrite <- !app_assoc in E. cbn [app] in E.
      apply (span hexit) in E as [A B]; [| apply hex_digits | apply hex_digits | intros b X; injection X as <-; reflexivity | intros b X; injection X as <-; reflexivity].
      injection B as ->. split; [|reflexivity]. apply hex_inj in A. apply (f_equal N.of_hex_uint) in A. rewrite !Unsigned.of_to in A. now apply code_inj.
    - exfalso. destruct (char_head c' H' S1') as (x & t & -> & N & _). injection E as E _. apply N; congruence.
    - exfalso. destruct (char_head c H S1) as (x & t & -> & N & _). injection E as E _. apply N; congruence.
    - exfalso. destruct (char_head c H S1) as (x & t & -> & N & _). injection E as E _. apply N; congruence.
    - now apply char_prefix.
  Qed.
  Lemma piece_start c p : utf8_char c -> piece_is c p -> exists b t, p = b :: t /\ b <> x22.
  Proof.
    intros H [b S1| |S1].
    - exists backslash, [b]. split; [reflexivity|discriminate].
    - eexists backslash, _. split; [reflexivity|discriminate].
    - destruct (char_head c H S1) as (x & t & -> & _ & N). eauto.
  Qed.
  Lemma escape_prefix n s : characters n s -> forall n' s' r r', characters n' s' -> escape n s ++ x22 :: r = escape n' s' ++ x22 :: r' -> s = s' /\ r = r'.
  Proof.
    induction 1 as [|n c s Hc Hs IH]; intros n' s' r r' [|m c' s2 Hc' Hs'] E.
    - injection E as ->. auto.
    - exfalso. rewrite escape_cons in E by exact Hc'. destruct (piece_start _ _ Hc' (piece_cases c')) as (b & t & X & N). rewrite X in E. injection E as E _. apply N; congruence.
    - exfalso. rewrite escape_cons in E by exact Hc. destruct (piece_start _ _ Hc (piece_cases c)) as (b & t & X & N). rewrite X in E. injection E as E _. apply N; congruence.
    - rewrite !escape_cons in E by assumption. rewrite <- !app_assoc in E. apply (piece_prefix c c') in E as [<- E]; auto using piece_cases.
      destruct (IH m s2 r r' Hs' E) as [<- <-]. auto.
  Qed.
  Theorem std_quote_unambiguous : unambiguous std_quote.
  Proof.
    split; [reflexivity|]. intros s s' r r' [n H] [n' H'] E. unfold std_quote in E. cbn [app] in E. injection E as E. rewrite <- !app_assoc in E. cbn [app] in E.
    rewrite (escape_fuel n s H), (escape_fuel n' s' H') in E by (eapply chars_length; eauto). eapply escape_prefix; eauto.
  Qed.
End Quote.
