(** C17, C40 and C54: the tokens a parse goes through. *)
From Coq Require Import List NArith Bool Lia Arith String.
From Coq.Strings Require Import Byte.
From Verif Require Import Bytes Token Lexer Ast Prog Parser SpecLexer SpecRead SpecUtf8 SpecTrace SpecGap TokenText LexerFacts LexEval TraceFacts GapSim GapFacts Valid WholeFacts Utf8Facts Boundary.
Import ListNotations.
Open Scope nat_scope.
Open Scope list_scope.

(** The record of tokens exists for every parse, and describes it. *)
Theorem C17_recorded : forall (alnum : N -> bool) (src : str) (r : parse_result),
  parses_to alnum src r <-> exists l, parse_tokens alnum src r l.
Proof. intros alnum src r. split; [apply parses_tokens|intros [l H]; exact (parse_tokens_run _ _ _ _ H)]. Qed.
Print Assumptions C17_recorded.

(** C17: the source, up to its end or a NUL, is made of the tokens read and of white space and comments. *)
Theorem C17_read_to_the_end_partial : forall (alnum : N -> bool) (src : str) (r : parse_result) (l : list spot),
  parse_tokens alnum src r l -> accounts src l.
Proof. exact whole. Qed.
Print Assumptions C17_read_to_the_end_partial.
Lemma nul_at src p t : skipn p (src ++ [x00]) = x00 :: t -> ~ In x00 src -> p <= List.length src -> p = List.length src.
Proof.
  intros E N L. destruct (Nat.eq_dec p (List.length src)) as [|X]; [assumption|]. exfalso. apply N. rewrite skipn_app in E. destruct (skipn p src) as [|b r] eqn:Er.
  - apply (f_equal (@List.length _)) in Er. rewrite skipn_length in Er. cbn in Er. lia.
  - cbn in E. injection E as -> _. rewrite <- (firstn_skipn p src), Er. apply in_or_app. right. now left.
Qed.
(** Without a NUL: up to its end. *)
Theorem C17_no_nul : forall (alnum : N -> bool) (src : str) (r : parse_result) (l : list spot),
  parse_tokens alnum src r l -> ~ In x00 src -> exists l0, l = l0 ++ [(T_EndOfProgram, List.length src, List.length src)].
Proof.
  intros alnum src r l H N. destruct (whole _ _ _ _ H) as [_ _ (l0 & [[t a] b] & -> & T & E & L & (x & X))]. unfold s_token, s_start, s_end in *. cbn [fst snd] in *. subst t b. rewrite (nul_at _ _ _ X N L). eauto.
Qed.
Print Assumptions C17_no_nul.
(** What follows a NUL is not read at all. *)
Theorem C17_after_nul : forall (alnum : N -> bool) (src rest : str) (r : parse_result),
  parses_to alnum src r -> parses_to alnum (src ++ x00 :: rest) r.
Proof. intros alnum src rest r H. destruct (parses_tokens _ _ _ H) as [l Hl]. exact (nul_ignored _ _ _ _ _ Hl). Qed.
Print Assumptions C17_after_nul.

(** C54: an accepted program has only valid tokens. *)
Theorem C54_valid_tokens : forall (alnum : N -> bool) (src : str) (m : module) (l : list spot) (x : spot),
  parse_tokens alnum src (ParseOk m) l -> In x l -> s_token x <> T_UnexpectedToken /\ s_token x <> T_UnexpectedEndOfProgram.
Proof.
  intros alnum src m l x H I. destruct (accepted_tokens _ _ _ _ H) as [F _]. rewrite Forall_forall in F. specialize (F x I). unfold legit in F. split; intros E; rewrite E in F; discriminate F.
Qed.
Print Assumptions C54_valid_tokens.

(** C40: the gap between two tokens of an accepted program can be replaced by another one, with the same effect on line ends. *)
Theorem C40_gap : forall (alnum : N -> bool) (a g g' b : str) (m : module) (l1 l2 : list spot),
  parse_tokens alnum (a ++ g ++ b) (ParseOk m) (l1 ++ l2) -> cut a g l1 l2 ->
  gap g (b ++ [x00]) -> gap g' (b ++ [x00]) -> (g' = [] -> g = []) -> (ends_line g <-> ends_line g') ->
  (forall x r, In x l1 -> g' = "/"%byte :: r -> s_token x = T_OperatorDivision -> s_end x < List.length a) ->
  utf8 b ->
  exists m', parses_to alnum (a ++ g' ++ b) (ParseOk m') /\ same_tree m m'.
Proof.
  intros alnum a g g' b m l1 l2 H C G G' N L D U. destruct (gap_replaced alnum a g g' b _ l1 l2 H C) as (r' & P & Sm); auto.
  - intros x I E. destruct (C54_valid_tokens _ _ _ _ x H ltac:(apply in_or_app; now left)) as [N1 N2]. split; [exact N1|]. split; [exact N2|]. intros r Er T. specialize (D x r I Er T). lia.
  - destruct r' as [m'|es]; [|destruct Sm]. exists m'. split; [exact P|exact Sm].
Qed.
Print Assumptions C40_gap.
Lemma white_gap g rest : Forall white g -> gap g rest.
Proof. induction 1; constructor; auto. Qed.
Lemma white_line g : Forall white g -> ends_line g <-> In x0a g.
Proof.
  intros W. split.
  - intros (h & w & -> & _). apply in_or_app. right. now left.
  - intros I. apply in_split in I as (h & w & ->). exists h, w. split; [reflexivity|]. apply Forall_app in W as [_ W]. exact (Forall_inv_tail W).
Qed.
(** White space for white space. *)
Theorem C40_white_space : forall (alnum : N -> bool) (a g g' b : str) (m : module) (l1 l2 : list spot),
  parse_tokens alnum (a ++ g ++ b) (ParseOk m) (l1 ++ l2) -> cut a g l1 l2 ->
  Forall white g -> Forall white g' -> g' <> [] -> (In x0a g <-> In x0a g') -> utf8 b ->
  exists m', parses_to alnum (a ++ g' ++ b) (ParseOk m') /\ same_tree m m'.
Proof.
  intros alnum a g g' b m l1 l2 H C W W' N L U. apply (C40_gap alnum a g g' b m l1 l2 H C); auto using white_gap.
  - congruence.
  - rewrite !white_line by assumption. exact L.
  - intros x r _ ->. apply Forall_inv in W'. vm_compute in W'. destruct W' as [_ W']. now destruct W'.
Qed.
Print Assumptions C40_white_space.
(** Also when there are errors, if the token before the gap is a valid one. *)
Theorem C40_any_result_partial : forall (alnum : N -> bool) (a g g' b : str) (r : parse_result) (l1 l2 : list spot),
  parse_tokens alnum (a ++ g ++ b) r (l1 ++ l2) -> cut a g l1 l2 ->
  gap g (b ++ [x00]) -> gap g' (b ++ [x00]) -> (g' = [] -> g = []) -> (ends_line g <-> ends_line g') ->
  (forall x, In x l1 -> s_end x = List.length a -> s_token x <> T_UnexpectedToken /\ s_token x <> T_UnexpectedEndOfProgram) ->
  (forall x t, In x l1 -> g' = "/"%byte :: t -> s_token x = T_OperatorDivision -> s_end x < List.length a) ->
  utf8 b ->
  exists r', parses_to alnum (a ++ g' ++ b) r' /\ same_result r r'.
Proof.
  intros alnum a g g' b r l1 l2 H C G G' N L V D U. apply (gap_replaced alnum a g g' b r l1 l2 H C); auto.
  intros x I E. destruct (V x I E) as [N1 N2]. split; [exact N1|]. split; [exact N2|]. intros t Et T. specialize (D x t I Et T). lia.
Qed.
Print Assumptions C40_any_result_partial.

(** Replacing the space in [x +y], of which four tokens are before the gap and three after. *)
Definition letters (c : N) : bool := false.
Definition trace_of (src : str) : list spot :=
  match lexer_new letters src with
  | Done lx => match trun letters body 60 (body _ F_parse) (PState lx []) with Done (_, _, l) => spot_of lx :: l | _ => [] end
  | _ => []
  end.
Definition result_of (src : str) : parse_result := match parse_fuel letters 60 src with Done r => r | _ => ParseErr [] end.
Example C40_tokens : trace_of (bs "x=/a b/ +y") =
  [(T_Identifier, 0, 1); (T_OperatorAssign, 1, 2); (T_OperatorDivision, 2, 3); (T_LiteralRegEx, 2, 7); (T_OperatorAddition, 8, 9); (T_Identifier, 9, 10); (T_EndOfProgram, 10, 10)].
Proof. vm_compute. reflexivity. Qed.
Example C40_cut : exists m, result_of (bs "x=/a b/ +y") = ParseOk m /\ parse_tokens letters (bs "x=/a b/" ++ bs " " ++ bs "+y") (ParseOk m) (trace_of (bs "x=/a b/ +y")) /\
  cut (bs "x=/a b/") (bs " ") (firstn 4 (trace_of (bs "x=/a b/ +y"))) (skipn 4 (trace_of (bs "x=/a b/ +y"))).
Proof.
  eexists. split; [vm_compute; reflexivity|]. split.
  - exists 60. eexists _, _, _, _. split; [vm_compute; reflexivity|]. split; [vm_compute; reflexivity|]. split; vm_compute; reflexivity.
  - constructor; vm_compute.
    + repeat (constructor; [split; lia|]). constructor.
    + right. exists [(T_Identifier, 0, 1); (T_OperatorAssign, 1, 2); (T_OperatorDivision, 2, 3)], (T_LiteralRegEx, 2, 7). split; reflexivity.
    + repeat (constructor; [lia|]). constructor.
Qed.
(** An invalid token can end where the white space begins, and go on if it is replaced: here the text of the error is longer. *)
Example C40_invalid_token : exists es es',
  parses_to letters (bs "/a" ++ [x0a] ++ bs "b") (ParseErr es) /\ parses_to letters (bs "/a" ++ [x20; x0a] ++ bs "b") (ParseErr es') /\ map err_raw es <> map err_raw es'.
Proof. eexists _, _. split; [exists 60; vm_compute; reflexivity|]. split; [exists 60; vm_compute; reflexivity|]. vm_compute. discriminate. Qed.
