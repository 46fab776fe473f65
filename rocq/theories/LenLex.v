(** The bytes of a source, against its lexemes. *)
From Coq Require Import List NArith Bool Lia Arith String.
From Coq.Strings Require Import Byte.
From Verif Require Import Bytes Token Tables Lexer Ast SpecTokens SpecRead SpecChunks LexerFacts ConsumeFacts LexEval StateFacts TokenText ChunkText SpellFacts GapSim Codegen SpecSyntax SpecReading LenGram.
Import ListNotations.
Open Scope nat_scope.
Open Scope list_scope.

Definition width (lx : lexer) : nat := pos (lx_cur lx) - pos (lx_tok lx).
Lemma width_text src lx : lex_inv src lx -> List.length (token_as_str lx) = width lx.
Proof.
  intros I. unfold token_as_str, slice, width. destruct (li_fwd _ _ I) as (s & Es & Q). rewrite firstn_length, Es, app_length. lia.
Qed.
Lemma find_spelling t p : find (fun p => token_eqb (snd p) t) SPELLINGS = Some p -> In (fst p, t) SPELLINGS.
Proof. intros H. apply find_some in H as [I E]. apply token_eqb_eq in E. subst t. now destruct p. Qed.
(** The weight of the current lexeme is no more than its bytes. *)
Lemma weigh alnum src lx lx' : lex_inv src lx -> consume alnum lx = Done lx' -> wt (current lx') <= width lx'.
Proof.
  intros I H. destruct (consume_inv _ _ _ _ I H) as (I' & _ & D). assert (W := width_text _ _ I').
  assert (N : lx_token lx' = T_EndOfProgram \/ lx_token lx' = T_UnexpectedToken \/ 1 <= width lx').
  { destruct D as [D1 D2|[r D1] D2 D3 D4|b r c n D1 D2 D3 D4 D5 D6]; [right; right; unfold width; lia|auto|auto]. }
  assert (L : least (lx_token lx') <= width lx').
  { unfold least. destruct (find _ SPELLINGS) as [p|] eqn:F.
    - apply find_spelling in F. rewrite <- (consume_spelled alnum lx lx' (fst p) (li_ok _ _ I) H F). lia.
    - destruct N as [N|[N|N]]; [rewrite N; lia|rewrite N; lia|]. destruct (lx_token lx'); lia. }
  unfold current, wt. cbn [fst snd w_text]. destruct (token_eqb (lx_token lx') T_Accessor) eqn:E.
  - apply token_eqb_eq in E. destruct (ck_accessor _ (consume_chunk alnum lx lx' (li_ok _ _ I) H) E) as ((x & s & Ew & _) & ws & Et & _). rewrite Et in W. rewrite E, Ew in *. cbn [List.length dot] in *. rewrite app_length in W. cbn [List.length] in W. change (least T_Accessor) with 1. lia.
  - assert (X : forall t (A : Type) (a b : A), token_eqb t T_Accessor = false -> match t with T_Accessor => a | _ => b end = b) by (intros t A a b; destruct t; try reflexivity; discriminate). rewrite (X _ _ _ _ E), W.
    unfold dot. rewrite (X _ _ _ _ E). lia.
Qed.
(** ... also if it is read again, as a regular expression or a piece of a template. *)
Lemma reweigh src lx lx1 : lex_inv src lx1 -> lx_tok lx1 = lx_tok lx -> fwd (lx_cur lx) (lx_cur lx1) -> 1 <= width lx -> In (lx_token lx1) [T_LiteralRegEx; T_TemplateOpen; T_TemplateClosed] -> wt (current lx1) <= width lx1.
Proof.
  intros I T F L X. apply fwd_pos in F. assert (W := width_text _ _ I). unfold current, wt. cbn [fst snd w_text].
  destruct X as [X|[X|[X|[]]]]; rewrite <- X; cbn [dot]; match goal with |- context [least ?t] => let v := eval vm_compute in (least t) in change (least t) with v end; rewrite W; unfold width in *; rewrite T in *; lia.
Qed.
Lemma reading_weight alnum src lx ls : reading alnum lx ls -> lex_inv src lx -> wt (current lx) <= width lx -> wl ls + pos (lx_tok lx) <= List.length src.
Proof.
  assert (Z : forall lx ls x, lex_inv src lx -> wt x <= width lx -> wl ls + pos (lx_cur lx) <= List.length src -> wl (x :: ls) + pos (lx_tok lx) <= List.length src).
  { intros l r x I W H. cbn [wl]. apply lex_inv_tok_pos in I. unfold width in W. lia. }
  assert (Y : forall lx lx1 ls, lex_inv src lx -> consume alnum lx = Done lx1 -> wl ls + pos (lx_tok lx1) <= List.length src -> wl ls + pos (lx_cur lx) <= List.length src).
  { intros l l1 r I C H. destruct (consume_inv _ _ _ _ I C) as (_ & F & _). apply fwd_pos in F. lia. }
  induction 1 as [lx E|lx lx1 ls C H IH|lx v lx1 lx2 ls E Rx E1 C H IH|lx lx1 lx2 ls E Rt E1 C H IH]; intros I W.
  - apply Z; [exact I|exact W|]. cbn [wl]. apply lex_inv_pos in I. lia.
  - apply Z; [exact I|exact W|]. destruct (consume_inv _ _ _ _ I C) as (J & _). apply (Y _ lx1); [exact I|exact C|]. apply IH; [exact J|]. exact (weigh _ _ _ _ I C).
  - destruct (regex_inv _ _ _ _ I Rx) as (J1 & Et & _). destruct (consume_inv _ _ _ _ J1 C) as (J2 & _). assert (F : fwd (lx_cur lx) (lx_cur lx1)) by (apply regex_step in Rx; [apply Rx|apply I]).
    rewrite <- Et. apply Z; [exact J1| |].
    + apply (reweigh src lx); auto. * unfold current, wt in W. cbn [fst] in W. rewrite E in W. cbn [dot] in W. change (least T_OperatorDivision) with 1 in W. lia. * rewrite E1. cbn. auto.
    + apply (Y _ lx2); [exact J1|exact C|]. apply IH; [exact J2|]. exact (weigh _ _ _ _ J1 C).
  - destruct (template_inv _ _ _ I Rt) as (J1 & Et & _). destruct (consume_inv _ _ _ _ J1 C) as (J2 & _). assert (F : fwd (lx_cur lx) (lx_cur lx1)) by (apply template_step in Rt; [apply Rt|apply I]).
    rewrite <- Et. apply Z; [exact J1| |].
    + apply (reweigh src lx); auto. * unfold current, wt in W. cbn [fst] in W. rewrite E in W. cbn [dot] in W. change (least T_BraceClose) with 1 in W. lia. * cbn in E1 |- *. tauto.
    + apply (Y _ lx2); [exact J1|exact C|]. apply IH; [exact J2|]. exact (weigh _ _ _ _ J1 C).
Qed.
Lemma new_weight alnum src lx ls : lexer_new alnum src = Done lx -> reading alnum lx ls -> wl ls <= List.length src.
Proof.
  intros E R. destruct (consume_inv _ src _ _ (init_inv src) E) as (I & _). assert (W := reading_weight _ _ _ _ R I (weigh _ _ _ _ (init_inv src) E)). lia.
Qed.
Lemma program_length ls m out : program ls m -> codegen m true = Done out -> List.length out <= 2 * wl ls.
Proof.
  destruct 1 as [s l m H]. intros E. apply cl_min in E. apply len_statements in H. rewrite E, wl_app. unfold c_module. destruct m as [|x m]; [cbn; lia|].
  cbn [c_block_rest] in H. rewrite !cl_app in *. cbn [cl] in H. lia.
Qed.
