(** Spellings of tokens, and the length of minified code: C69, C70. *)
From Coq Require Import List NArith Bool Lia Arith String.
From Coq.Strings Require Import Byte.
From Verif Require Import Bytes Token Tables Lexer Ast SpecTree Parser Codegen SpecTokens SpecRead LexerFacts ConsumeFacts StateFacts TokenText LexProps SpellFacts SpecSyntax SpecReading PropSyntax PropCodegen PropCompact LenGram LenLex.
Import ListNotations.
Open Scope nat_scope.
Open Scope list_scope.

(** ** C69: keywords and punctuators are spelled as the language says, whatever the history of the lexer *)
Lemma reread_token t : In t [T_TemplateOpen; T_TemplateClosed; T_LiteralRegEx; T_UnexpectedToken; T_UnexpectedEndOfProgram] -> forall s, ~ In (s, t) (KEYWORDS ++ PUNCTUATORS).
Proof.
  intros I s J. change (KEYWORDS ++ PUNCTUATORS) with SPELLINGS in J. apply (in_map snd) in J. cbn [snd] in J.
  assert (X : forallb (fun t => negb (existsb (token_eqb t) (map snd SPELLINGS))) [T_TemplateOpen; T_TemplateClosed; T_LiteralRegEx; T_UnexpectedToken; T_UnexpectedEndOfProgram] = true) by (vm_compute; reflexivity).
  rewrite forallb_forall in X. apply X in I. apply negb_true_iff in I. assert (Y : existsb (token_eqb t) (map snd SPELLINGS) = true) by (apply existsb_exists; exists t; split; [exact J|destruct t; reflexivity]). congruence.
Qed.
Theorem C69_spelling : forall (alnum : N -> bool) (src : str) (lx : lexer) (s : str),
  lexer_reach alnum src lx -> In (s, lx_token lx) (KEYWORDS ++ PUNCTUATORS) -> token_as_str lx = s.
Proof.
  intros alnum src lx s R J. destruct R as [lx H|lx lx' R H|lx lx' R H|lx v lx' R H].
  - apply (consume_spelled alnum _ lx s (li_ok _ _ (init_inv src)) H J).
  - apply (consume_spelled alnum _ lx' s (li_ok _ _ (lexer_reach_inv _ _ _ R)) H J).
  - apply template_token in H. destruct (reread_token (lx_token lx')) with (2 := J). cbn. intuition congruence.
  - destruct (reread_token (lx_token lx')) with (2 := J). unfold read_regular_expression in H. cbv zeta in H. ob H as [k c] Hk Hr. destruct k; [|injection Hr as _ <-; cbn; tauto|injection Hr as _ <-; cbn; tauto].
    ob Hr as lx2 Hs Hz. injection Hz as _ <-. cbn. tauto.
Qed.
Print Assumptions C69_spelling.
(** Nothing but the spelling: a source that consists of one keyword, one of the punctuators. *)
Example C69_nonvacuous : exists lx lx1 lx2, lexer_new (fun _ => true) (bs "typeof>>>=in") = Done lx /\ lexer_reach (fun _ => true) (bs "typeof>>>=in") lx2 /\
  In (bs "typeof", lx_token lx) (KEYWORDS ++ PUNCTUATORS) /\ consume (fun _ => true) lx = Done lx1 /\ In (bs ">>>=", lx_token lx1) (KEYWORDS ++ PUNCTUATORS) /\
  consume (fun _ => true) lx1 = Done lx2 /\ In (bs "in", lx_token lx2) (KEYWORDS ++ PUNCTUATORS).
Proof.
  do 3 eexists. split; [vm_compute; reflexivity|]. split; [eapply lr_consume; [eapply lr_consume; [apply lr_new|]|]|]; try solve [vm_compute; reflexivity].
  split; [vm_compute; tauto|]. split; [vm_compute; reflexivity|]. split; [vm_compute; tauto|]. split; [vm_compute; reflexivity|]. vm_compute; tauto.
Qed.

(** ** C70: minifying at most doubles the length *)
Theorem C70_at_most_double : forall (alnum : N -> bool) (src : str) (m : module) (out : str),
  parses_to alnum src (ParseOk m) -> codegen m true = Done out -> List.length out <= 2 * List.length src.
Proof.
  intros alnum src m out H E. destruct (lexer_new alnum src) as [lx| | |] eqn:L.
  2-4: destruct H as [n H]; unfold parse_fuel in H; rewrite L in H; discriminate H.
  destruct (C62_accepted_is_program _ _ _ _ L H) as (ls & R & Pg). assert (A := new_weight _ _ _ _ L R). assert (B := program_length _ _ _ Pg E). lia.
Qed.
Print Assumptions C70_at_most_double.
(** Two is the least such factor: the code of a source of length 1 has length 2, and there are sources
    of any length whose code falls short of twice their length by two bytes. *)
Example C70_attained : exists m, parses_to (fun _ => true) (bs "a") (ParseOk m) /\ codegen m true = Done (bs "a;").
Proof. eexists. split; [exists 60; vm_compute; reflexivity|vm_compute; reflexivity]. Qed.

Fixpoint accesses (n : nat) : str := match n with 0 => [] | S n => bs ".a" ++ accesses n end.
Fixpoint accessed (e : expression) (n : nat) : expression := match n with 0 => e | S n => accessed (E_Member (Node 0 0 e) (Node 0 0 (bs "a"))) n end.
Fixpoint steps (n : nat) : list lexeme := match n with 0 => [] | S n => (T_Accessor, Word (bs "a") false) :: steps n end.
Definition end_of : lexeme := (T_EndOfProgram, Word [] true).
Lemma accesses_next n : exists c r, accesses n ++ [x00] = c :: r /\ (c = x00 \/ c = "."%byte).
Proof. destruct n as [|n]; cbn; eauto. Qed.
Lemma access alnum buf t a p tok acc q c r : c = x00 \/ c = "."%byte ->
  consume alnum (Lexer buf t a (Cur p (bs ".a" ++ c :: r)) tok acc q) =
  Done (Lexer buf T_Accessor NoSemicolon (Cur (S (S p)) (c :: r)) (Cur p (bs ".a" ++ c :: r)) (Cur (S p) (bs "a" ++ c :: r)) q).
Proof. intros [-> | ->]; rewrite consume_unfold; cbn; rewrite ?Nat.add_0_r, ?Nat.add_1_r; reflexivity. Qed.
Lemma last_access alnum buf t a p tok acc q : consume alnum (Lexer buf t a (Cur p [x00]) tok acc q) = Done (Lexer buf T_EndOfProgram ImplicitSemicolon (Cur p [x00]) (Cur p [x00]) acc q).
Proof. rewrite consume_unfold. reflexivity. Qed.
Lemma reading_accesses alnum n : forall buf p lx x, lx_cur lx = Cur p (accesses n ++ [x00]) -> lx_buf lx = buf -> current lx = x -> reading alnum lx (x :: steps n ++ [end_of]).
Proof.
  induction n as [|n IH]; intros buf p [b t a [p0 r0] tok acc q] x Ec Eb Ex; cbn [lx_cur lx_buf] in *; injection Ec as -> Er; subst x.
  - cbn in Er. subst r0. apply rd_next with (lx1 := Lexer b T_EndOfProgram ImplicitSemicolon (Cur p [x00]) (Cur p [x00]) acc q); [apply last_access|].
    assert (X : current (Lexer b T_EndOfProgram ImplicitSemicolon (Cur p [x00]) (Cur p [x00]) acc q) = end_of). { unfold current, token_as_str, slice. cbn. now rewrite Nat.sub_diag. }
    cbn [steps app]. rewrite <- X. now apply rd_end.
  - destruct (accesses_next n) as (c & r & E & Hc). assert (E' : accesses (S n) ++ [x00] = bs ".a" ++ c :: r) by (cbn; cbn in E; now rewrite E). assert (Er' : r0 = bs ".a" ++ c :: r) by (rewrite Er; exact E'). clear Er. subst r0.
    eapply rd_next; [apply access; exact Hc|]. cbn [steps app]. apply (IH b (S (S p))); [cbn [lx_cur]; now rewrite E|reflexivity|].
    unfold current, accessor_as_str, slice. cbn [lx_token lx_asi lx_acc lx_cur pos rem]. replace (S (S p) - S p) with 1 by lia. reflexivity.
Qed.
Lemma member_of n : forall e l, expr 17 false l e -> expr 17 false (l ++ steps n) (accessed e n).
Proof.
  induction n as [|n IH]; intros e l H; cbn [steps accessed]; [now rewrite app_nil_r|]. change ((T_Accessor, Word (bs "a") false) :: steps n) with ([(T_Accessor, Word (bs "a") false)] ++ steps n). rewrite app_assoc.
  apply IH. now apply x_member.
Qed.
Lemma accessed_code n : forall e s, expression_bp e < 19 -> run_min (c_expression e) = Done s -> exists s', run_min (c_expression (accessed e n)) = Done s' /\ List.length s' = List.length s + 4 * n.
Proof.
  induction n as [|n IH]; intros e s B H; cbn [accessed]; [exists s; split; [exact H|lia]|].
  destruct (IH (E_Member (Node 0 0 e) (Node 0 0 (bs "a"))) (bs "(" ++ s ++ bs ").a")) as (s' & E1 & E2); [cbn; lia| |].
  - cbn [c_expression]. apply run_min_app. exists (bs "(" ++ s ++ bs ")"), (bs ".a"). split; [|split; [reflexivity|now rewrite <- !app_assoc]].
    unfold c_bound. cbn [n_item]. apply Nat.ltb_lt in B. rewrite B. apply run_min_app. exists (bs "("), (s ++ bs ")"). split; [reflexivity|]. split; [|reflexivity]. apply run_min_app. exists s, (bs ")"). auto.
  - exists s'. split; [exact E1|]. rewrite E2, !app_length. cbn. lia.
Qed.
Theorem C70_least_factor : forall (alnum : N -> bool) (n : nat), exists src m out, n <= List.length src /\
  parses_to alnum src (ParseOk m) /\ codegen m true = Done out /\ List.length out + 2 = 2 * List.length src.
Proof.
  intros alnum n. set (src := bs "a" ++ accesses (S n)). assert (Ls : forall n, List.length (accesses n) = 2 * n) by (intros k; induction k as [|k IH]; [reflexivity|]; cbn [accesses]; rewrite app_length, IH; cbn; lia).
  set (e := accessed (E_Identifier (bs "a")) (S n)). set (m := [Node 0 0 (St_Expression (Node 0 0 e))] : module).
  set (lx := Lexer (nul_terminated src) T_Identifier NoSemicolon (Cur 1 (accesses (S n) ++ [x00])) (Cur 0 (src ++ [x00])) (Cur 0 (src ++ [x00])) []).
  assert (L : lexer_new alnum src = Done lx). { unfold lexer_new, lexer_init. rewrite consume_unfold. subst src lx. cbn [accesses]. cbn. reflexivity. }
  assert (R : reading alnum lx ((T_Identifier, Word (bs "a") false) :: steps (S n) ++ [end_of])) by (apply (reading_accesses alnum (S n) (nul_terminated src) 1); reflexivity).
  assert (P : program (((T_Identifier, Word (bs "a") false) :: steps (S n)) ++ [end_of]) m).
  { apply pg_program. rewrite <- (app_nil_r ((T_Identifier, Word (bs "a") false) :: steps (S n))). apply ss_cons; [|apply ss_nil]. cbn [n_item next].
    rewrite <- (app_nil_r ((T_Identifier, Word (bs "a") false) :: steps (S n))). apply st_expression with (o := false); cbn [n_item].
    - apply (x_weaker 0 17); [lia|]. apply (member_of (S n) _ [(T_Identifier, Word (bs "a") false)]). apply (x_weaker 17 18); [lia|]. apply x_atom. apply (at_name (Word (bs "a") false)).
    - cbn. intuition discriminate.
    - now apply se_none.
    - left. cbn. intuition discriminate. }
  destruct (C61_programs_accepted _ _ _ _ _ L R P) as (m' & H & Q).
  destruct (accessed_code n (E_Member (Node 0 0 (E_Identifier (bs "a"))) (Node 0 0 (bs "a"))) (bs "a.a")) as (s' & E1 & E2); [cbn; lia|reflexivity|].
  exists src, m', (s' ++ bs ";"). split; [|split; [exact H|split]].
  - subst src. rewrite app_length, Ls. lia.
  - rewrite <- (C06_codegen_ignores_locations _ _ true Q). unfold codegen, m, c_module. cbn [c_block_rest]. rewrite app_nil_r. unfold c_node. cbn [n_item c_statement].
    assert (X : is_allowed_as_bare_statement e = true). { assert (Y : forall k o p, is_allowed_as_bare_statement (accessed (E_Member o p) k) = true) by (intros k; induction k as [|k IH]; intros o p; [reflexivity|apply IH]). apply Y. }
    rewrite X. apply run_min_app. exists s', (bs ";"). auto.
  - subst src. rewrite !app_length, Ls, E2. cbn. lia.
Qed.
Print Assumptions C70_least_factor.
