(** The JSON of a tree determines the tree. *)
From Coq Require Import List NArith Bool Lia Arith String.
From Coq.Strings Require Import Byte.
From Verif Require Import Bytes Token Lexer Ast AstInd SpecTokens SpecTree SpecAst Astgen LexerFacts AstFacts JsonFacts SpecMirror SpecRecover SpecJsonText.
Import ListNotations.
Open Scope nat_scope.
Open Scope list_scope.

(** Nothing is used of a float but what is printed for it. *)
Section Floats.
Variable float_text : str -> str.
Fixpoint wo (j : json) : json :=
  match j with
  | J_Float t => if str_eqb (float_text t) (bs "null") then J_Null else J_Float (float_text t)
  | J_Arr l => J_Arr (map wo l)
  | J_Obj fields => J_Obj ((fix go fs := match fs with [] => [] | (k, v) :: r => if is_position k then go r else (k, wo v) :: go r end) fields)
  | _ => j
  end.
Lemma wo_printed : forall j, wo j = without_positions (printed float_text j).
Proof.
  fix IH 1. intros [|b|n|t|s|l|fs]; cbn [wo printed without_positions]; try reflexivity.
  - destruct (str_eqb _ _); reflexivity.
  - f_equal. induction l as [|v l IHl]; cbn [map]; [reflexivity|]. now rewrite IH, IHl.
  - f_equal. induction fs as [|[k v] fs IHl]; cbn [map fst snd]; [reflexivity|]. now rewrite IH, IHl.
Qed.
Lemma wo_without : forall j, wo j = printed float_text (without_positions j).
Proof.
  fix IH 1. intros [|b|n|t|s|l|fs]; cbn [wo printed without_positions]; try reflexivity.
  - f_equal. induction l as [|v l IHl]; cbn [map]; [reflexivity|]. now rewrite IH, IHl.
  - f_equal. induction fs as [|[k v] fs IHl]; cbn [map fst snd]; [reflexivity|]. destruct (is_position k); [exact IHl|]. cbn [map fst snd]. now rewrite IH, IHl.
Qed.
Definition wos : list (str * json) -> list (str * json) := fix go fs := match fs with [] => [] | (k, v) :: r => if is_position k then go r else (k, wo v) :: go r end.
Lemma wo_obj fs : wo (J_Obj fs) = J_Obj (wos fs).
Proof. reflexivity. Qed.
Lemma wos_app a b : wos (a ++ b) = wos a ++ wos b.
Proof. induction a as [|[k v] a IH]; cbn [wos app]; [reflexivity|]. destruct (is_position k); cbn [app]; congruence. Qed.
Lemma bs_inj s t : bs s = bs t -> s = t.
Proof. unfold bs. intros H. apply (f_equal string_of_list_byte) in H. now rewrite !string_of_list_byte_of_string in H. Qed.

(** Two results that are the same JSON. *)
Definition eqv (o o' : outcome json) : Prop := exists j j', o = Done j /\ o' = Done j' /\ wo j = wo j'.
Fixpoint eqvs (fs fs' : list (string * outcome json)) : Prop :=
  match fs, fs' with
  | [], [] => True
  | (k, v) :: r, (k', v') :: r' => k = k' /\ eqv v v' /\ eqvs r r'
  | _, _ => False
  end.
Definition keys_ok (fs : list (string * outcome json)) : bool := forallb (fun f => negb (is_position (bs (fst f)))) fs.
Lemma eqvs_of fs : forall fs' x x', seq_fields fs = Done x -> seq_fields fs' = Done x' -> keys_ok fs = true -> keys_ok fs' = true -> wos x = wos x' -> eqvs fs fs'.
Proof.
  induction fs as [|[k v] fs IH]; intros [|[k' v'] fs'] x x' E E' K K' W; cbn [seq_fields] in E, E'.
  - exact I.
  - exfalso. injection E as <-. apply obind_done in E' as (y & _ & E'). apply obind_done in E' as (r & _ & E'). injection E' as <-. cbn [keys_ok forallb fst] in K'. apply andb_prop in K' as [K' _]. apply negb_true_iff in K'. cbn [wos] in W. rewrite K' in W. discriminate W.
  - exfalso. injection E' as <-. apply obind_done in E as (y & _ & E). apply obind_done in E as (r & _ & E). injection E as <-. cbn [keys_ok forallb fst] in K. apply andb_prop in K as [K _]. apply negb_true_iff in K. cbn [wos] in W. rewrite K in W. discriminate W.
  - apply obind_done in E as (y & Y & E). apply obind_done in E as (r & R & E). injection E as <-. apply obind_done in E' as (y' & Y' & E'). apply obind_done in E' as (r' & R' & E'). injection E' as <-.
    cbn [keys_ok forallb fst] in K, K'. apply andb_prop in K as [K Ks]. apply andb_prop in K' as [K' Ks']. apply negb_true_iff in K, K'. cbn [wos] in W. rewrite K, K' in W. injection W as W1 W2 W3.
    cbn [eqvs]. split; [now apply bs_inj|]. split; [exists y, y'; auto|]. eapply IH; eauto.
Qed.
Lemma eqv_obj st en ty fs st' en' ty' fs' : keys_ok fs = true -> keys_ok fs' = true -> eqv (obj st en ty fs) (obj st' en' ty' fs') -> ty = ty' /\ eqvs fs fs'.
Proof.
  intros K K' (j & j' & E & E' & W). apply obj_inv in E as (x & E & ->). apply obj_inv in E' as (x' & E' & ->). rewrite !wo_obj in W. cbn [wos] in W. change (is_position (bs "type")) with false in W. cbn match in W.
  injection W as W1 W2. split; [now apply bs_inj|]. rewrite !wos_app in W2. cbn [wos] in W2. change (is_position (bs "start")) with true in W2. change (is_position (bs "end")) with true in W2. cbn match in W2. rewrite !app_nil_r in W2. eapply eqvs_of; eauto.
Qed.
Lemma of_eqvs fs : forall fs', eqvs fs fs' -> exists x x', seq_fields fs = Done x /\ seq_fields fs' = Done x' /\ wos x = wos x'.
Proof.
  induction fs as [|[k v] fs IH]; intros [|[k' v'] fs'] H; try destruct H.
  - exists [], []. auto.
  - destruct H0 as [(j & j' & E & E' & W) R]. subst k'. destruct (IH _ R) as (x & x' & X & X' & Q). exists ((bs k, j) :: x), ((bs k, j') :: x'). cbn [seq_fields]. rewrite E, E', X, X'. split; [reflexivity|]. split; [reflexivity|]. cbn [wos]. rewrite W, Q. reflexivity.
Qed.
Lemma obj_eqv st en ty fs st' en' fs' : eqvs fs fs' -> eqv (obj st en ty fs) (obj st' en' ty fs').
Proof.
  intros H. destruct (of_eqvs _ _ H) as (x & x' & X & X' & Q). unfold obj. rewrite X, X'. cbn [obind]. do 2 eexists. split; [reflexivity|]. split; [reflexivity|]. rewrite !wo_obj. cbn [wos].
  rewrite !wos_app, Q. reflexivity.
Qed.
Lemma eqv_arr l : forall l', eqv (jarr l) (jarr l') -> Forall2 eqv l l'.
Proof.
  assert (G : forall l l' x x', seq_list l = Done x -> seq_list l' = Done x' -> map wo x = map wo x' -> Forall2 eqv l l').
  { clear. induction l as [|v l IH]; intros [|v' l'] x x' E E' W; cbn [seq_list] in E, E'.
    - constructor.
    - injection E as <-. apply obind_done in E' as (y & _ & E'). apply obind_done in E' as (r & _ & E'). injection E' as <-. discriminate W.
    - injection E' as <-. apply obind_done in E as (y & _ & E). apply obind_done in E as (r & _ & E). injection E as <-. discriminate W.
    - apply obind_done in E as (y & Y & E). apply obind_done in E as (r & R & E). injection E as <-. apply obind_done in E' as (y' & Y' & E'). apply obind_done in E' as (r' & R' & E'). injection E' as <-.
      injection W as W1 W2. constructor; [exists y, y'; auto|eapply IH; eauto]. }
  intros l' (j & j' & E & E' & W). unfold jarr in *. apply obind_done in E as (x & E & X). injection X as <-. apply obind_done in E' as (x' & E' & X). injection X as <-. injection W as W. eapply G; eauto.
Qed.
Lemma eqv_str s s' : eqv (jstr s) (jstr s') -> s = s'.
Proof. intros (j & j' & E & E' & W). injection E as <-. injection E' as <-. now injection W. Qed.
Lemma eqv_bool s s' : eqv (jbool s) (jbool s') -> s = s'.
Proof. intros (j & j' & E & E' & W). injection E as <-. injection E' as <-. now injection W. Qed.
Lemma eqv_sym o o' : eqv o o' -> eqv o' o.
Proof. intros (j & j' & E & E' & W). exists j', j. auto. Qed.
Lemma eqv_null_obj st en ty fs : ~ eqv jnull (obj st en ty fs).
Proof. intros (j & j' & E & E' & W). injection E as <-. apply obj_inv in E' as (x & _ & ->). discriminate W. Qed.
(** The type of an object, or none. *)
Definition head (j : json) : option str := match j with J_Obj ((_, J_Str t) :: _) => Some t | _ => None end.
Definition heads_as (ty : string -> Prop) (o : outcome json) : Prop := forall j, o = Done j -> exists t, head (wo j) = Some (bs t) /\ ty t.
Lemma obj_heads st en t fs (ty : string -> Prop) : ty t -> heads_as ty (obj st en t fs).
Proof. intros H j E. apply obj_inv in E as (x & _ & ->). exists t. auto. Qed.
Lemma heads_meet o o' ty ty' : eqv o o' -> heads_as ty o -> heads_as ty' o' -> exists t, ty t /\ ty' t.
Proof. intros (j & j' & E & E' & W) H H'. destruct (H _ E) as (t & T & Q), (H' _ E') as (t' & T' & Q'). rewrite W, T' in T. injection T as T. apply bs_inj in T. subst t'. eauto. Qed.
Lemma null_heads o ty : heads_as ty o -> ~ eqv jnull o.
Proof. intros H (j & j' & E & E' & W). injection E as <-. destruct (H _ E') as (t & T & _). rewrite <- W in T. discriminate T. Qed.

(** ** Types of expressions and statements *)
Definition etag (e : expression) : list string :=
  match e with
  | E_Void => [] | E_This => ["ThisExpression"] | E_Identifier _ => ["Identifier"] | E_Literal _ => ["Literal"]
  | E_Sequence _ => ["SequenceExpression"] | E_Array _ => ["ArrayExpression"] | E_Member _ _ | E_ComputedMember _ _ => ["MemberExpression"]
  | E_MetaProperty _ _ => ["MetaProperty"] | E_Call _ _ => ["CallExpression"]
  | E_Binary _ _ _ => ["BinaryExpression"; "LogicalExpression"; "AssignmentExpression"]
  | E_Prefix O_New _ => ["NewExpression"]
  | E_Prefix _ _ => ["UnaryExpression"; "UpdateExpression"] | E_Postfix _ _ => ["UnaryExpression"; "UpdateExpression"]
  | E_Conditional _ _ _ => ["ConditionalExpression"] | E_Template _ => ["TemplateLiteral"] | E_TaggedTemplate _ _ => ["TaggedTemplateExpression"]
  | E_Spread _ => ["SpreadElement"] | E_Arrow _ _ => ["ArrowFunctionExpression"] | E_Object _ => ["ObjectExpression"]
  | E_Function _ => ["FunctionExpression"] | E_Class _ => ["ClassExpression"]
  end%string.
Lemma binary_type op : In op binary_operators -> In (expression_type op false) ["BinaryExpression"; "LogicalExpression"; "AssignmentExpression"]%string.
Proof. intros H. repeat (destruct H as [<-|H]; [cbn; tauto|]). destruct H. Qed.
Lemma prefix_type op : In op prefix_operators -> op <> O_New -> In (expression_type op true) ["UnaryExpression"; "UpdateExpression"]%string.
Proof. intros H N. repeat (destruct H as [<-|H]; [cbn; tauto|]). destruct H. Qed.
Lemma maybe_function n : maybe_named n -> in_function n = "FunctionExpression"%string /\ in_class n = "ClassExpression"%string.
Proof. intros [-> |(i & -> & _)]; auto. Qed.
Lemma named_function n : named n -> in_function n = "FunctionDeclaration"%string /\ in_class n = "ClassDeclaration"%string.
Proof. intros (i & -> & _); auto. Qed.
Lemma expression_heads st en e : expression_wf e -> heads_as (fun t => In t (etag e)) (a_expression st en e).
Proof.
  intros W. destruct e as [| | |l| | | | | | |op l r|op x|op x| |t| | |ps b| |f|c]; cbn [a_expression etag]; try (apply obj_heads; cbn; tauto).
  - intros j E. discriminate E.
  - destruct l; apply obj_heads; cbn; tauto.
  - apply obj_heads. now apply binary_type.
  - destruct op; try (apply obj_heads; apply prefix_type; [exact W|discriminate]). destruct (n_item x); try (intros j E; discriminate E); apply obj_heads; cbn; tauto.
  - apply obj_heads. destruct W as [<-|[<-|[]]]; cbn; tauto.
  - destruct t. apply obj_heads. cbn; tauto.
  - destruct f as [n g ps b]. destruct W as [W _]. cbn [a_func]. apply obj_heads. rewrite (proj1 (maybe_function _ W)). cbn; tauto.
  - destruct c as [n e b]. cbn [a_class]. apply obj_heads. rewrite (proj2 (maybe_function _ W)). cbn; tauto.
Qed.
Definition stag (s : statement) : string :=
  match s with
  | St_Empty => "EmptyStatement" | St_Debugger => "DebuggerStatement" | St_Expression _ => "ExpressionStatement" | St_Declaration _ _ => "VariableDeclaration"
  | St_Return _ => "ReturnStatement" | St_Break _ => "BreakStatement" | St_Continue _ => "ContinueStatement" | St_Throw _ => "ThrowStatement"
  | St_If _ _ _ => "IfStatement" | St_While _ _ => "WhileStatement" | St_Do _ _ => "DoWhileStatement" | St_For _ _ _ _ => "ForStatement" | St_ForIn _ _ _ => "ForInStatement"
  | St_ForOf _ _ _ => "ForOfStatement" | St_Try _ _ _ => "TryStatement" | St_Block _ => "BlockStatement" | St_Labeled _ _ => "LabeledStatement"
  | St_Function _ => "FunctionDeclaration" | St_Class _ => "ClassDeclaration" | St_Switch _ _ => "SwitchStatement" | St_Import _ _ => "ImportDeclaration"
  end%string.
Lemma statement_heads st en s : statement_wf s -> heads_as (fun t => t = stag s) (a_statement st en s).
Proof.
  intros W. destruct s as [| |e|k ds|v|l|l|v|t c a|t b|b t|i t u b|l r b|l r b|b h f|b|l b|f|c|d c|ss src]; cbn [a_statement stag]; try (apply obj_heads; reflexivity).
  - destruct f as [n g ps b]. destruct W as [W _]. cbn [a_func]. apply obj_heads. now rewrite (proj1 (named_function _ W)).
  - destruct c as [n e b]. cbn [a_class]. apply obj_heads. now rewrite (proj2 (named_function _ W)).
Qed.
Lemma operator_str_inj a b : operator_str a = operator_str b -> a = b.
Proof. destruct a, b; intros H; try reflexivity; vm_compute in H; discriminate H. Qed.

(** ** Texts of binary literals *)
Lemma binary_start s : number_text s T_LiteralBinary -> exists x ds, In x ["b"; "B"]%byte /\ s = "0"%byte :: x :: ds.
Proof. intros [[more H]|[E _]]; [|discriminate E]. remember T_LiteralBinary as t eqn:T. destruct H; try discriminate T. eauto. Qed.
Lemma mantissa_second m more a x r tl : mantissa m more -> m ++ tl = a :: x :: r -> ~ In x ["b"; "B"]%byte \/ (m = [a] /\ tl = x :: r).
Proof.
  intros M E. destruct M as [|d ds D Ds|d ds D Ds|d ds f D Ds Df|d f D Df]; cbn [app] in E.
  - right. injection E as <- E. auto.
  - left. injection E as _ <- _. intros [<-|[<-|[]]]; discriminate D.
  - destruct ds as [|d2 ds]; [right; injection E as <- E; auto|]. left. injection E as _ <- _. apply Forall_inv in Ds. intros [<-|[<-|[]]]; discriminate Ds.
  - left. destruct ds as [|d2 ds]; cbn [app] in E; injection E as _ <- _; [intros [H|[H|[]]]; discriminate H|]. apply Forall_inv in Ds. intros [<-|[<-|[]]]; discriminate Ds.
  - left. injection E as _ <- _. intros [<-|[<-|[]]]; discriminate D.
Qed.
Lemma number_not_binary s x ds : number_text s T_LiteralNumber -> s = "0"%byte :: x :: ds -> ~ In x ["b"; "B"]%byte.
Proof.
  intros H E I.
  assert (Ex : forall e, In e exponent_mark -> In e ["b"; "B"]%byte -> False) by (intros e [<-|[<-|[]]] [H0|[H0|[]]]; discriminate H0).
  destruct H as [[more H]|(_ & m & more & e & M & J & ->)].
  - remember T_LiteralNumber as t eqn:T. destruct H as [m more M|m more e d es M J D Ds|m more e sg es M J Sg Ds|y es J F|y es J F|y es J F]; try discriminate T.
    + rewrite <- (app_nil_r m) in E. destruct (mantissa_second _ _ _ _ _ _ M E) as [K|[_ K]]; [auto|discriminate K].
    + destruct (mantissa_second _ _ _ _ _ _ M E) as [K|[_ K]]; [auto|]. injection K as -> _. eauto.
    + destruct (mantissa_second _ _ _ _ _ _ M E) as [K|[_ K]]; [auto|]. injection K as -> _. eauto.
    + injection E as -> _. destruct J as [<-|[<-|[]]], I as [I|[I|[]]]; discriminate I.
    + injection E as -> _. destruct J as [<-|[<-|[]]], I as [I|[I|[]]]; discriminate I.
  - destruct (mantissa_second _ _ _ _ _ _ M E) as [K|[_ K]]; [auto|]. injection K as -> _. eauto.
Qed.
Lemma binary_key_differs s : number_text s T_LiteralBinary -> ~ (word_text s \/ quoted s \/ number_text s T_LiteralNumber).
Proof.
  intros B. destruct (binary_start _ B) as (x & ds & I & ->). intros [(b & w & E & _ & D)|[(q & ins & Q & _ & E)|H]].
  - injection E as <- _. discriminate D.
  - injection E as <- _. destruct Q as [Q|Q]; discriminate Q.
  - eapply number_not_binary; eauto.
Qed.

(** ** Literals *)
Definition shape (j : json) : nat := match j with J_Bool _ => 1 | J_Null | J_Int _ | J_Float _ => 2 | J_Str _ => 3 | J_Arr _ => 4 | J_Obj _ => 5 end.
Lemma wo_shape j : shape (wo j) = shape j.
Proof. destruct j; cbn [wo]; try reflexivity. destruct (str_eqb _ _); reflexivity. Qed.
Definition shaped (n : nat) (o : outcome json) : Prop := forall j, o = Done j -> shape j = n.
Lemma eqv_shaped o o' n n' : eqv o o' -> shaped n o -> shaped n' o' -> n = n'.
Proof. intros (j & j' & E & E' & W) S1 S2. rewrite <- (S1 _ E), <- (S2 _ E'), <- (wo_shape j), <- (wo_shape j'), W. reflexivity. Qed.
Lemma shaped_null : shaped 2 jnull. Proof. intros j E. injection E as <-. reflexivity. Qed.
Lemma shaped_bool b : shaped 1 (jbool b). Proof. intros j E. injection E as <-. reflexivity. Qed.
Lemma shaped_str s : shaped 3 (jstr s). Proof. intros j E. injection E as <-. reflexivity. Qed.
Lemma shaped_number s : shaped 2 (number_value s).
Proof.
  intros j E. unfold number_value in E. assert (G : forall r : option N, match r with Some v => Done (J_Int v) | None => Panicked end = Done j -> shape j = 2) by (intros [v|] X; [injection X as <-; reflexivity|discriminate X]).
  destruct (_ && _)%bool; [now apply G in E|]. destruct (_ && _)%bool; [now apply G in E|]. destruct (is_float s); [|now apply G in E]. destruct (f64_parses s); [injection E as <-; reflexivity|discriminate E].
Qed.
Lemma shaped_binary (r : option N) : shaped 2 (match r with Some v => Done (J_Int v) | None => Panicked end).
Proof. intros j E. destruct r; [injection E as <-; reflexivity|discriminate E]. Qed.
Ltac shp := first [apply shaped_null|apply shaped_bool|apply shaped_str|apply shaped_number|apply shaped_binary].
Ltac clash := exfalso; match goal with H : eqv ?a ?b |- False => let X := fresh in assert (X := eqv_shaped a b _ _ H ltac:(shp) ltac:(shp)); discriminate X end.
Lemma mantissa_first m more : mantissa m more -> exists b t, m = b :: t /\ b <> "n"%byte.
Proof.
  intros [|d ds D _|d ds D _|d ds f D _ _|d f D _]; do 2 eexists; (split; [reflexivity|]); try discriminate; intros ->; discriminate D.
Qed.
Lemma null_no_number t : ~ number_text (bs "null") t.
Proof.
  assert (G : forall m more r, mantissa m more -> bs "null" <> m ++ r) by (intros m more r M E; destruct (mantissa_first _ _ M) as (b & t' & -> & N); injection E as E _; auto).
  intros [[more H]|(_ & m & more & e & M & _ & E)]; [|eapply G; eauto]. remember (bs "null") as s eqn:E. destruct H as [m more M|m more e d es M J D Ds|m more e sg es M J Sg Ds|y es J F|y es J F|y es J F]; try discriminate E.
  - apply (G _ _ [] M). now rewrite app_nil_r.
  - exact (G _ _ _ M eq_refl).
  - exact (G _ _ _ M eq_refl).
Qed.
Lemma literal_inj st en l st' en' l' : expression_wf (E_Literal l) -> expression_wf (E_Literal l') -> eqv (a_literal st en l) (a_literal st' en' l') -> l = l'.
Proof.
  intros W W' H. destruct l as [| | | |s|s|s|s], l' as [| | | |s'|s'|s'|s']; cbn [a_literal] in H; apply eqv_obj in H as [_ H]; try reflexivity; cbn [eqvs] in H; cbn [expression_wf] in W, W'.
  all: decompose [and] H; clear H; try discriminate; try contradiction; try reflexivity.
  all: try (match goal with H : eqv (jbool _) (jbool _) |- _ => apply eqv_bool in H; discriminate H end).
  all: try (match goal with H : eqv (jstr _) (jstr _) |- _ => apply eqv_str in H; subst; try reflexivity end).
  all: try (exfalso; match goal with W : number_text (bs "null") _ |- _ => exact (null_no_number _ W) end).
  all: try clash.
  - exfalso. destruct (binary_start _ W') as (x & ds & I & ->). eapply number_not_binary; eauto.
  - exfalso. destruct (binary_start _ W) as (x & ds & I & ->). eapply number_not_binary; eauto.
Qed.

(** ** Names and chunks *)
Lemma ident_inj n n' : eqv (a_ident n) (a_ident n') -> strip_id n = strip_id n'.
Proof. intros H. apply eqv_obj in H as [_ H]; try reflexivity. destruct H as (_ & H & _). apply eqv_str in H. unfold strip_id, strip_node. now rewrite H. Qed.
Lemma identifier_inj st en s st' en' s' : eqv (a_identifier st en s) (a_identifier st' en' s') -> s = s'.
Proof. intros H. apply eqv_obj in H as [_ H]; try reflexivity. destruct H as (_ & H & _). now apply eqv_str in H. Qed.
Lemma ident_heads st en s : heads_as (fun t => t = "Identifier"%string) (a_identifier st en s).
Proof. now apply obj_heads. Qed.
Lemma name_inj n n' : (maybe_named n /\ maybe_named n') \/ (named n /\ named n') \/ (n = Name_Empty /\ n' = Name_Empty) -> eqv (a_name n) (a_name n') -> strip_name n = strip_name n'.
Proof.
  intros [[[-> |(i & -> & _)] [-> |(i' & -> & _)]]|[[(i & -> & _) (i' & -> & _)]|[-> ->]]] H; cbn [a_name strip_name option_map] in *; try reflexivity.
  - destruct (eqv_null_obj _ _ _ _ H).
  - destruct (eqv_null_obj _ _ _ _ (eqv_sym _ _ H)).
  - now rewrite (ident_inj _ _ H).
  - now rewrite (ident_inj _ _ H).
Qed.
Lemma quasis_inj qs : forall qs', Forall2 eqv (a_quasis qs) (a_quasis qs') -> map strip_id qs = map strip_id qs'.
Proof.
  induction qs as [|q qs IH]; intros [|q' qs'] H; cbn [a_quasis] in H; inversion H as [|x y l l' H1 H2 E1 E2]; [reflexivity|]. subst. cbn [map]. f_equal; [|now apply IH].
  destruct (n_end q =? 0)%N; [destruct H1 as (j & _ & X & _); discriminate X|]. destruct (n_end q' =? 0)%N; [destruct H1 as (_ & j & _ & X & _); discriminate X|].
  apply eqv_obj in H1 as [_ H1]; try reflexivity. destruct H1 as (_ & _ & _ & (j & j' & E & E' & W) & _). injection E as <-. injection E' as <-. cbn in W. injection W as W _. unfold strip_id, strip_node. now rewrite W.
Qed.
Lemma opt_ident_inj (l l' : option (node str)) : eqv (match l with Some l => a_ident l | None => jnull end) (match l' with Some l => a_ident l | None => jnull end) -> option_map strip_id l = option_map strip_id l'.
Proof.
  destruct l as [l|], l' as [l'|]; cbn [option_map]; intros H; try reflexivity.
  - now rewrite (ident_inj _ _ H).
  - destruct (eqv_null_obj _ _ _ _ (eqv_sym _ _ H)).
  - destruct (eqv_null_obj _ _ _ _ H).
Qed.

(** ** Trees *)
Definition wfs (a : any) : Prop := forall d, within d a -> well_formed d /\ shown d.
Lemma wfs_here a : wfs a -> well_formed a /\ shown a.
Proof. intros H. apply H. constructor. Qed.
Lemma wfs_children a : wfs a -> Forall wfs (children a).
Proof. intros H. apply Forall_forall. intros c I d W. apply H. eapply within_child; eauto. Qed.
Definition inj_by {A : Set} (f : N -> N -> A -> outcome json) (s : A -> A) (g : node A -> any) (n : node A) : Prop :=
  forall n' st en st' en', wfs (g n') -> eqv (f st en (n_item n)) (f st' en' (n_item n')) -> s (n_item n) = s (n_item n').
Definition inj (a : any) : Prop :=
  match a with
  | A_Ident _ | A_Spec _ => True
  | A_Expr n => inj_by a_expression strip_expression A_Expr n
  | A_Tpl n => inj_by a_template strip_template A_Tpl n
  | A_Prop n => inj_by a_property strip_property A_Prop n
  | A_Key n => forall n', wfs (A_Key n') -> computed_key n = computed_key n' -> eqv (a_node a_key n) (a_node a_key n') -> strip_property_key (n_item n) = strip_property_key (n_item n')
  | A_Pat n => inj_by a_pattern strip_pattern A_Pat n
  | A_Func n => inj_by a_func strip_func A_Func n
  | A_Member n => inj_by a_member strip_class_member A_Member n
  | A_Body n => inj_by (fun st en b => a_block (Node st en b)) (strip_block strip_statement) A_Body n
  | A_ClassBody n => inj_by (fun _ _ b => a_list a_member (b_body b)) (strip_block strip_class_member) A_ClassBody n
  | A_Cases n => inj_by (fun _ _ b => a_list a_case (b_body b)) (strip_block strip_case) A_Cases n
  | A_Stmt n => inj_by a_statement strip_statement A_Stmt n
  | A_Declarator n => inj_by a_declarator strip_declarator A_Declarator n
  | A_ForInit n => inj_by a_for_init strip_for_init A_ForInit n
  | A_Case n => inj_by a_case strip_case A_Case n
  | A_Catch n => inj_by a_catch strip_catch A_Catch n
  end.
Lemma use {A : Set} (f : N -> N -> A -> outcome json) s g (n n' : node A) : inj_by f s g n -> wfs (g n') -> eqv (a_node f n) (a_node f n') -> strip_node s n = strip_node s n'.
Proof. intros H W E. unfold strip_node. f_equal. exact (H n' _ _ _ _ W E). Qed.
Lemma use_list {A : Set} (f : N -> N -> A -> outcome json) s g (l : list (node A)) : Forall (inj_by f s g) l -> forall l', Forall (fun n => wfs (g n)) l' -> eqv (a_list f l) (a_list f l') -> map (strip_node s) l = map (strip_node s) l'.
Proof.
  intros F l' F' E. apply eqv_arr in E. revert l' F' E. induction F as [|n l H F IH]; intros [|n' l'] F' E; cbn [map] in *; inversion E as [|x y t t' E1 E2 X Y]; [reflexivity|]. subst.
  f_equal; [eapply use; [exact H|exact (Forall_inv F')|exact E1]|apply IH; [exact (Forall_inv_tail F')|exact E2]].
Qed.
Lemma use_opt {A : Set} (f : N -> N -> A -> outcome json) s g (o o' : option (node A)) : Forall (inj_by f s g) (opt (fun n => n) o) -> Forall (fun n => wfs (g n)) (opt (fun n => n) o') ->
  (forall n, wfs (g n) -> exists ty, heads_as ty (a_node f n)) -> (forall n, o = Some n -> wfs (g n)) ->
  eqv (a_opt f o) (a_opt f o') -> option_map (strip_node s) o = option_map (strip_node s) o'.
Proof.
  intros F F' T Wo E. destruct o as [n|], o' as [n'|]; cbn [a_opt option_map opt] in *.
  - f_equal. eapply use; [exact (Forall_inv F)|exact (Forall_inv F')|exact E].
  - exfalso. destruct (T n (Wo _ eq_refl)) as (ty & Hd). apply (null_heads _ _ Hd). now apply eqv_sym.
  - exfalso. destruct (T n' (Forall_inv F')) as (ty & Hd). apply (null_heads _ _ Hd E).
  - reflexivity.
Qed.
Definition is_some {A} (o : option A) : bool := match o with Some _ => true | None => false end.
(** When a value that is written is not null, it is an object: *)
Lemma expr_obj n : wfs (A_Expr n) -> exists ty, heads_as ty (a_node a_expression n).
Proof. intros W. eexists. apply expression_heads. apply (wfs_here _ W). Qed.
Lemma stmt_obj n : wfs (A_Stmt n) -> exists ty, heads_as ty (a_node a_statement n).
Proof. intros W. eexists. apply statement_heads. apply (wfs_here _ W). Qed.
Lemma init_heads n st en : wfs (A_ForInit n) -> heads_as (fun t => match n_item n with FI_Declaration _ _ => t = "VariableDeclaration"%string | FI_Expression e => In t (etag (n_item e)) end) (a_for_init st en (n_item n)).
Proof.
  intros W. assert (C := wfs_children _ W). cbn [children] in C. destruct (n_item n); cbn [a_for_init].
  - now apply obj_heads.
  - apply expression_heads. apply (wfs_here _ (Forall_inv C)).
Qed.
Lemma init_obj n : wfs (A_ForInit n) -> exists ty, heads_as ty (a_node a_for_init n).
Proof. intros W. eexists. now apply init_heads. Qed.
Lemma catch_obj n : wfs (A_Catch n) -> exists ty, heads_as ty (a_node a_catch n).
Proof. intros _. exists (fun t => t = "CatchClause"%string). unfold a_node. destruct (n_item n). now apply obj_heads. Qed.
Lemma body_obj n : exists ty, heads_as ty (a_block n).
Proof. exists (fun t => t = "BlockStatement"%string). now apply obj_heads. Qed.
Lemma Forall_inj {A : Set} (f : N -> N -> A -> outcome json) s (g : node A -> any) l : (forall n, inj (g n) = inj_by f s g n) -> Forall inj (map g l) -> Forall (inj_by f s g) l.
Proof. intros Q F. rewrite Forall_map in F. revert F. apply Forall_impl. intros n. now rewrite Q. Qed.
Lemma exprs_inj l l' : Forall inj (map A_Expr l) -> Forall wfs (map A_Expr l') -> eqv (a_list a_expression l) (a_list a_expression l') -> map (strip_node strip_expression) l = map (strip_node strip_expression) l'.
Proof. intros F F'. apply (use_list a_expression strip_expression A_Expr); [now apply Forall_inj|now rewrite Forall_map in F']. Qed.
Lemma pats_inj l l' : Forall inj (map A_Pat l) -> Forall wfs (map A_Pat l') -> eqv (a_list a_pattern l) (a_list a_pattern l') -> map (strip_node strip_pattern) l = map (strip_node strip_pattern) l'.
Proof. intros F F'. apply (use_list a_pattern strip_pattern A_Pat); [now apply Forall_inj|now rewrite Forall_map in F']. Qed.
Lemma props_inj l l' : Forall inj (map A_Prop l) -> Forall wfs (map A_Prop l') -> eqv (a_list a_property l) (a_list a_property l') -> map (strip_node strip_property) l = map (strip_node strip_property) l'.
Proof. intros F F'. apply (use_list a_property strip_property A_Prop); [now apply Forall_inj|now rewrite Forall_map in F']. Qed.
Lemma stmts_inj l l' : Forall inj (map A_Stmt l) -> Forall wfs (map A_Stmt l') -> eqv (a_list a_statement l) (a_list a_statement l') -> map (strip_node strip_statement) l = map (strip_node strip_statement) l'.
Proof. intros F F'. apply (use_list a_statement strip_statement A_Stmt); [now apply Forall_inj|now rewrite Forall_map in F']. Qed.
Lemma members_inj l l' : Forall inj (map A_Member l) -> Forall wfs (map A_Member l') -> eqv (a_list a_member l) (a_list a_member l') -> map (strip_node strip_class_member) l = map (strip_node strip_class_member) l'.
Proof. intros F F'. apply (use_list a_member strip_class_member A_Member); [now apply Forall_inj|now rewrite Forall_map in F']. Qed.
Lemma cases_inj l l' : Forall inj (map A_Case l) -> Forall wfs (map A_Case l') -> eqv (a_list a_case l) (a_list a_case l') -> map (strip_node strip_case) l = map (strip_node strip_case) l'.
Proof. intros F F'. apply (use_list a_case strip_case A_Case); [now apply Forall_inj|now rewrite Forall_map in F']. Qed.
Lemma decls_inj l l' : Forall inj (map A_Declarator l) -> Forall wfs (map A_Declarator l') -> eqv (a_list a_declarator l) (a_list a_declarator l') -> map (strip_node strip_declarator) l = map (strip_node strip_declarator) l'.
Proof. intros F F'. apply (use_list a_declarator strip_declarator A_Declarator); [now apply Forall_inj|now rewrite Forall_map in F']. Qed.
Lemma expr_inj n n' : inj (A_Expr n) -> wfs (A_Expr n') -> eqv (a_node a_expression n) (a_node a_expression n') -> strip_node strip_expression n = strip_node strip_expression n'.
Proof. apply use. Qed.
Lemma stmt_inj n n' : inj (A_Stmt n) -> wfs (A_Stmt n') -> eqv (a_node a_statement n) (a_node a_statement n') -> strip_node strip_statement n = strip_node strip_statement n'.
Proof. apply use. Qed.
Lemma tpl_inj n n' : inj (A_Tpl n) -> wfs (A_Tpl n') -> eqv (a_node a_template n) (a_node a_template n') -> strip_node strip_template n = strip_node strip_template n'.
Proof. apply use. Qed.
Lemma pat_inj n n' : inj (A_Pat n) -> wfs (A_Pat n') -> eqv (a_node a_pattern n) (a_node a_pattern n') -> strip_node strip_pattern n = strip_node strip_pattern n'.
Proof. apply use. Qed.
Lemma func_inj n n' : inj (A_Func n) -> wfs (A_Func n') -> eqv (a_node a_func n) (a_node a_func n') -> strip_node strip_func n = strip_node strip_func n'.
Proof. apply use. Qed.
Lemma init_inj n n' : inj (A_ForInit n) -> wfs (A_ForInit n') -> eqv (a_node a_for_init n) (a_node a_for_init n') -> strip_node strip_for_init n = strip_node strip_for_init n'.
Proof. apply use. Qed.
Lemma key_inj n n' : inj (A_Key n) -> wfs (A_Key n') -> computed_key n = computed_key n' -> eqv (a_node a_key n) (a_node a_key n') -> strip_node strip_property_key n = strip_node strip_property_key n'.
Proof. intros H W C E. unfold strip_node. f_equal. now apply H. Qed.
Lemma body_inj n n' : inj (A_Body n) -> wfs (A_Body n') -> eqv (obj (n_start n) (n_end n) "BlockStatement" [("body"%string, a_list a_statement (b_body (n_item n)))]) (obj (n_start n') (n_end n') "BlockStatement" [("body"%string, a_list a_statement (b_body (n_item n')))]) ->
  strip_node (strip_block strip_statement) n = strip_node (strip_block strip_statement) n'.
Proof. intros H W E. unfold strip_node. f_equal. exact (H n' _ _ _ _ W E). Qed.
Lemma classbody_inj n n' : inj (A_ClassBody n) -> wfs (A_ClassBody n') -> eqv (obj (n_start n) (n_end n) "ClassBody" [("body"%string, a_list a_member (b_body (n_item n)))]) (obj (n_start n') (n_end n') "ClassBody" [("body"%string, a_list a_member (b_body (n_item n')))]) ->
  strip_node (strip_block strip_class_member) n = strip_node (strip_block strip_class_member) n'.
Proof. intros H W E. apply eqv_obj in E as [_ E]; try reflexivity. destruct E as (_ & E & _). unfold strip_node. f_equal. exact (H n' 0%N 0%N 0%N 0%N W E). Qed.
Lemma switch_inj n n' : inj (A_Cases n) -> wfs (A_Cases n') -> eqv (a_list a_case (b_body (n_item n))) (a_list a_case (b_body (n_item n'))) -> strip_node (strip_block strip_case) n = strip_node (strip_block strip_case) n'.
Proof. intros H W E. unfold strip_node. f_equal. exact (H n' 0%N 0%N 0%N 0%N W E). Qed.
Lemma opt_map {A : Set} (P : any -> Prop) (g : node A -> any) o : Forall P (opt g o) <-> Forall (fun n => P (g n)) (opt (fun n => n) o).
Proof. destruct o; cbn [opt]; rewrite ?Forall_cons_iff, ?Forall_nil'; tauto. Qed.
Lemma oexpr_inj o o' : Forall inj (opt A_Expr o) -> Forall wfs (opt A_Expr o) -> Forall wfs (opt A_Expr o') -> eqv (a_opt a_expression o) (a_opt a_expression o') -> option_map (strip_node strip_expression) o = option_map (strip_node strip_expression) o'.
Proof. intros F W F'. apply opt_map in F, F'. apply (use_opt _ _ _ _ _ F F'); [apply expr_obj|]. intros n ->. exact (Forall_inv W). Qed.
Lemma ostmt_inj o o' : Forall inj (opt A_Stmt o) -> Forall wfs (opt A_Stmt o) -> Forall wfs (opt A_Stmt o') -> eqv (a_opt a_statement o) (a_opt a_statement o') -> option_map (strip_node strip_statement) o = option_map (strip_node strip_statement) o'.
Proof. intros F W F'. apply opt_map in F, F'. apply (use_opt _ _ _ _ _ F F'); [apply stmt_obj|]. intros n ->. exact (Forall_inv W). Qed.
Lemma oinit_inj o o' : Forall inj (opt A_ForInit o) -> Forall wfs (opt A_ForInit o) -> Forall wfs (opt A_ForInit o') -> eqv (a_opt a_for_init o) (a_opt a_for_init o') -> option_map (strip_node strip_for_init) o = option_map (strip_node strip_for_init) o'.
Proof. intros F W F'. apply opt_map in F, F'. apply (use_opt _ _ _ _ _ F F'); [apply init_obj|]. intros n ->. exact (Forall_inv W). Qed.
Lemma ocatch_inj o o' : Forall inj (opt A_Catch o) -> Forall wfs (opt A_Catch o) -> Forall wfs (opt A_Catch o') -> eqv (a_opt a_catch o) (a_opt a_catch o') -> option_map (strip_node strip_catch) o = option_map (strip_node strip_catch) o'.
Proof. intros F W F'. apply opt_map in F, F'. apply (use_opt _ _ _ _ _ F F'); [apply catch_obj|]. intros n ->. exact (Forall_inv W). Qed.

(** ** One node *)
Ltac kids C := cbn [children children_expression children_statement children_func children_class children_template children_name n_item b_body] in C; rewrite ?Forall_app, ?Forall_cons_iff, ?Forall_nil' in C.
Ltac fields H := apply eqv_obj in H as [_ H]; [|reflexivity|reflexivity]; cbn [eqvs] in H.
Ltac ands := repeat match goal with H : _ /\ _ |- _ => destruct H end.
Ltac grow := match goal with
  | H : eqv (jstr _) (jstr _) |- _ => apply eqv_str in H
  | H : eqv (jbool _) (jbool _) |- _ => apply eqv_bool in H
  | H : eqv (a_ident _) (a_ident _) |- _ => apply ident_inj in H
  | H : eqv (a_node a_expression _) (a_node a_expression _) |- _ => apply expr_inj in H; [|assumption|assumption]
  | H : eqv (a_node a_statement _) (a_node a_statement _) |- _ => apply stmt_inj in H; [|assumption|assumption]
  | H : eqv (a_node a_template _) (a_node a_template _) |- _ => apply tpl_inj in H; [|assumption|assumption]
  | H : eqv (a_node a_pattern _) (a_node a_pattern _) |- _ => apply pat_inj in H; [|assumption|assumption]
  | H : eqv (a_node a_func _) (a_node a_func _) |- _ => apply func_inj in H; [|assumption|assumption]
  | H : eqv (a_node a_for_init _) (a_node a_for_init _) |- _ => apply init_inj in H; [|assumption|assumption]
  | H : eqv (a_list a_expression _) (a_list a_expression _) |- _ => apply exprs_inj in H; [|assumption|assumption]
  | H : eqv (a_list a_pattern _) (a_list a_pattern _) |- _ => apply pats_inj in H; [|assumption|assumption]
  | H : eqv (a_list a_property _) (a_list a_property _) |- _ => apply props_inj in H; [|assumption|assumption]
  | H : eqv (a_list a_statement _) (a_list a_statement _) |- _ => apply stmts_inj in H; [|assumption|assumption]
  | H : eqv (a_list a_member _) (a_list a_member _) |- _ => apply members_inj in H; [|assumption|assumption]
  | H : eqv (a_list a_case (b_body (n_item _))) (a_list a_case _) |- _ => apply switch_inj in H; [|assumption|assumption]
  | H : eqv (a_list a_declarator _) (a_list a_declarator _) |- _ => apply decls_inj in H; [|assumption|assumption]
  | H : eqv (a_opt a_expression _) (a_opt a_expression _) |- _ => apply oexpr_inj in H; [|assumption|assumption|assumption]
  | H : eqv (a_opt a_statement _) (a_opt a_statement _) |- _ => apply ostmt_inj in H; [|assumption|assumption|assumption]
  | H : eqv (a_opt a_for_init _) (a_opt a_for_init _) |- _ => apply oinit_inj in H; [|assumption|assumption|assumption]
  | H : eqv (a_opt a_catch _) (a_opt a_catch _) |- _ => apply ocatch_inj in H; [|assumption|assumption|assumption]
  | H : eqv (obj _ _ "BlockStatement" _) (obj _ _ "BlockStatement" _) |- _ => apply body_inj in H; [|assumption|assumption]
  | H : eqv (obj _ _ "ClassBody" _) (obj _ _ "ClassBody" _) |- _ => apply classbody_inj in H; [|assumption|assumption]
  end.

Lemma template_inj t t' st en st' en' : Forall inj (children_template t) -> Forall wfs (children_template t') -> eqv (a_template st en t) (a_template st' en' t') -> strip_template t = strip_template t'.
Proof.
  destruct t as [es qs], t' as [es' qs']. cbn [children_template a_template strip_template]. rewrite !Forall_app. intros [F _] [F' _] H. fields H. ands. match goal with H : eqv (jarr _) (jarr _) |- _ => apply eqv_arr, quasis_inj in H end. repeat grow. congruence.
Qed.
Lemma function_inj f f' st en st' en' : Forall inj (children_func f) -> Forall wfs (children_func f') ->
  (forall n g ps b n' g' ps' b', f = Func n g ps b -> f' = Func n' g' ps' b' -> (maybe_named n /\ maybe_named n') \/ (named n /\ named n') \/ (n = Name_Empty /\ n' = Name_Empty)) ->
  eqv (a_func st en f) (a_func st' en' f') -> strip_func f = strip_func f'.
Proof.
  destruct f as [n g ps b], f' as [n' g' ps' b']. intros F F' N. specialize (N _ _ _ _ _ _ _ _ eq_refl eq_refl). cbn [a_func strip_func]. kids F. kids F'. intros H. fields H. ands. repeat grow.
  match goal with H : eqv (a_name _) (a_name _) |- _ => apply name_inj in H; [|exact N] end. congruence.
Qed.
Lemma class_inj f f' st en st' en' : Forall inj (children_class f) -> Forall wfs (children_class f) -> Forall wfs (children_class f') ->
  (forall n g ps n' g' ps', f = Class n g ps -> f' = Class n' g' ps' -> (maybe_named n /\ maybe_named n') \/ (named n /\ named n') \/ (n = Name_Empty /\ n' = Name_Empty)) ->
  eqv (a_class st en f) (a_class st' en' f') -> strip_class f = strip_class f'.
Proof.
  destruct f as [n g ps], f' as [n' g' ps']. intros F W F' N. specialize (N _ _ _ _ _ _ eq_refl eq_refl). cbn [a_class strip_class]. kids F. kids F'. kids W. intros H. fields H. ands. repeat grow.
  match goal with H : eqv (a_name _) (a_name _) |- _ => apply name_inj in H; [|exact N] end. congruence.
Qed.

Lemma drop_trailing_all l : (forall b, l <> b ++ [None]) -> drop_trailing l = l.
Proof.
  induction l as [|x l IH]; intros H; [reflexivity|]. cbn [drop_trailing]. destruct l as [|y l].
  - cbn [drop_trailing]. destruct x; [reflexivity|]. destruct (H [] eq_refl).
  - rewrite IH; [destruct x; reflexivity|]. intros b E. apply (H (x :: b)). rewrite E. reflexivity.
Qed.
Definition slot_of (n : node expression) : option (outcome json) := match n_item n with E_Void => None | _ => Some (a_node a_expression n) end.
Lemma slots_all es : (forall before n, es = before ++ [n] -> n_item n <> E_Void) -> drop_trailing (map slot_of es) = map slot_of es.
Proof.
  intros H. apply drop_trailing_all. intros b E. assert (X : exists b' n, es = b' ++ [n]).
  { destruct es as [|n es]; [destruct b; discriminate E|]. destruct (exists_last (l := n :: es)) as (b' & z & ->); [discriminate|]. eauto. }
  destruct X as (b' & n & ->). rewrite map_app in E. apply app_inj_tail in E as [_ E]. assert (K := H _ _ eq_refl). unfold slot_of in E. destruct (n_item n); try discriminate E. now apply K.
Qed.
Lemma elements_inj es : forall es', Forall inj (map A_Expr es) -> Forall wfs (map A_Expr es) -> Forall wfs (map A_Expr es') -> Forall2 eqv (map hole (map slot_of es)) (map hole (map slot_of es')) -> map (strip_node strip_expression) es = map (strip_node strip_expression) es'.
Proof.
  induction es as [|n es IH]; intros [|n' es'] F W F' H; cbn [map] in *; inversion H as [|x y l l' H1 H2 X Y]; [reflexivity|]. subst.
  rewrite Forall_cons_iff in F, W, F'. destruct F as [F1 F2], W as [W1 W2], F' as [F1' F2']. f_equal; [|now apply IH].
  assert (Q : (n_item n = E_Void /\ slot_of n = None) \/ (slot_of n = Some (a_node a_expression n))) by (unfold slot_of; destruct (n_item n); auto).
  assert (Q' : (n_item n' = E_Void /\ slot_of n' = None) \/ (slot_of n' = Some (a_node a_expression n'))) by (unfold slot_of; destruct (n_item n'); auto).
  destruct Q as [[Q0 Q]|Q], Q' as [[Q0' Q']|Q']; rewrite Q, Q' in H1; cbn [hole] in H1.
  - unfold strip_node. now rewrite Q0, Q0'.
  - exfalso. destruct (expr_obj _ F1') as (ty & Hd). exact (null_heads _ _ Hd H1).
  - exfalso. destruct (expr_obj _ W1) as (ty & Hd). exact (null_heads _ _ Hd (eqv_sym _ _ H1)).
  - now apply expr_inj.
Qed.
Lemma prefix_inj_new x : (forall l, n_item x <> E_Literal l) -> forall st en j, a_expression st en (E_Prefix O_New x) = Done j -> exists c args, n_item x = E_Call c args.
Proof. intros N st en j H. cbn [a_expression] in H. destruct (n_item x); try discriminate H; [destruct (N _ eq_refl)|eauto]. Qed.
Lemma prefix_plain op st en x : op <> O_New -> a_expression st en (E_Prefix op x) = obj st en (expression_type op true) [("operator"%string, jstr (operator_str op)); ("argument"%string, a_node a_expression x); ("prefix"%string, jbool true)].
Proof. destruct op; congruence || reflexivity. Qed.
Lemma etag_prefix op x : op <> O_New -> etag (E_Prefix op x) = ["UnaryExpression"; "UpdateExpression"]%string.
Proof. destruct op; congruence || reflexivity. Qed.
Definition is_new (op : operator) : {op = O_New} + {op <> O_New}.
Proof. destruct op; (now left) || (right; discriminate). Defined.
Lemma disjoint_tags e e' st en st' en' : expression_wf e -> expression_wf e' -> eqv (a_expression st en e) (a_expression st' en' e') -> exists t, In t (etag e) /\ In t (etag e').
Proof. intros W W' H. exact (heads_meet _ _ _ _ H (expression_heads st en e W) (expression_heads st' en' e' W')). Qed.

Lemma step_expr n : wfs (A_Expr n) -> Forall inj (children (A_Expr n)) -> inj (A_Expr n).
Proof.
  intros W F n' st en st' en' W' H. assert (C := wfs_children _ W). assert (C' := wfs_children _ W'). destruct (wfs_here _ W) as [[Wf _] Sh]. destruct (wfs_here _ W') as [[Wf' _] Sh']. cbn [shown] in Sh, Sh'. clear W W'.
  destruct n as [s e i], n' as [s' e' i']. cbn [n_item] in *. destruct (disjoint_tags _ _ _ _ _ _ Wf Wf' H) as (t & T & T').
  destruct i as [| |x|l|es|es|o p|o p|m p|c args|op l r|op x|op x|t0 c a|tp|t0 q|x|ps b|b|f|c]; destruct i' as [| |x'|l'|es'|es'|o' p'|o' p'|m' p'|c' args'|op' l' r'|op' x'|op' x'|t0' c' a'|tp'|t0' q'|x'|ps' b'|b'|f'|c'].
  all: try (destruct (is_new op) as [-> |Nn]; [|rewrite (etag_prefix op) in T by exact Nn]).
  all: try (destruct (is_new op') as [-> |Nn']; [|rewrite (etag_prefix op') in T' by exact Nn']).
  all: try (exfalso; cbn [etag] in T, T'; cbn [In] in T, T'; intuition congruence).
  all: clear T T'.
  all: kids F; kids C; kids C'.
  - reflexivity.
  - cbn [strip_expression]. f_equal. exact (identifier_inj _ _ _ _ _ _ H).
  - cbn [strip_expression]. f_equal. exact (literal_inj _ _ _ _ _ _ Wf Wf' H).
  - cbn [a_expression] in H. fields H. ands. repeat grow. cbn [strip_expression]. congruence.
  - cbn [a_expression] in H. fields H. destruct H as (_ & H & _). apply eqv_arr in H. fold slot_of in H. rewrite (slots_all es), (slots_all es') in H by assumption. cbn [strip_expression]. f_equal. now apply elements_inj.
  - cbn [a_expression] in H. fields H. ands. repeat grow. cbn [strip_expression]. congruence.
  - exfalso. cbn [a_expression] in H. fields H. ands. repeat grow. discriminate.
  - exfalso. cbn [a_expression] in H. fields H. ands. repeat grow. discriminate.
  - cbn [a_expression] in H. fields H. ands. repeat grow. cbn [strip_expression]. congruence.
  - cbn [a_expression] in H. fields H. ands. repeat grow. cbn [strip_expression]. congruence.
  - cbn [a_expression] in H. fields H. ands. repeat grow. cbn [strip_expression]. congruence.
  - cbn [a_expression] in H. fields H. ands. repeat grow. cbn [strip_expression]. match goal with K : operator_str _ = operator_str _ |- _ => apply operator_str_inj in K end. congruence.
  - assert (H0 := H). destruct H0 as (j & j' & E & E' & _). destruct (prefix_inj_new _ Sh _ _ _ E) as (c & args & Qx). destruct (prefix_inj_new _ Sh' _ _ _ E') as (c' & args' & Qx').
    cbn [a_expression] in H. rewrite Qx, Qx' in H. fields H. cbn [strip_expression]. f_equal. unfold strip_node. f_equal.
    apply (proj1 F x' 0%N 0%N 0%N 0%N (proj1 C')). rewrite Qx, Qx'. cbn [a_expression]. apply obj_eqv. exact H.
  - rewrite !prefix_plain in H by assumption. fields H. ands. repeat grow. cbn [strip_expression]. match goal with K : operator_str _ = operator_str _ |- _ => apply operator_str_inj in K end. congruence.
  - exfalso. rewrite prefix_plain in H by assumption. cbn [a_expression] in H. fields H. ands. repeat grow. discriminate.
  - exfalso. rewrite prefix_plain in H by assumption. cbn [a_expression] in H. fields H. ands. repeat grow. discriminate.
  - cbn [a_expression] in H. fields H. ands. repeat grow. cbn [strip_expression]. match goal with K : operator_str _ = operator_str _ |- _ => apply operator_str_inj in K end. congruence.
  - cbn [a_expression] in H. fields H. ands. repeat grow. cbn [strip_expression]. congruence.
  - cbn [a_expression] in H. cbn [strip_expression]. f_equal. eapply template_inj; eauto.
  - cbn [a_expression] in H. fields H. ands. repeat grow. cbn [strip_expression]. congruence.
  - cbn [a_expression] in H. fields H. ands. repeat grow. cbn [strip_expression]. congruence.
  - cbn [a_expression] in H. fields H. cbn [strip_expression]. destruct b as [x|b], b' as [x'|b']; cbn match in H; kids F; kids C'; ands; cbn [strip_arrow_body].
    + repeat grow. congruence.
    + exfalso. kids C. ands. assert (Wx : expression_wf (n_item x)) by (match goal with K2 : wfs (A_Expr x) |- _ => exact (proj1 (proj1 (wfs_here _ K2))) end).
      match goal with K : eqv (a_node a_expression x) _ |- _ => destruct (heads_meet _ _ _ _ K (expression_heads _ _ _ Wx) (obj_heads _ _ _ _ (fun t => t = "BlockStatement"%string) eq_refl)) as (u & T & ->) end.
      destruct (n_item x) as [| | | | | | | | | | |op| | | | | | | | |]; cbn in T; try (intuition discriminate). destruct op; cbn in T; intuition discriminate.
    + exfalso. assert (Wx : expression_wf (n_item x')) by (match goal with K2 : wfs (A_Expr x') |- _ => exact (proj1 (proj1 (wfs_here _ K2))) end).
      match goal with K : eqv _ (a_node a_expression x') |- _ => destruct (heads_meet _ _ _ _ K (obj_heads _ _ _ _ (fun t => t = "BlockStatement"%string) eq_refl) (expression_heads _ _ _ Wx)) as (u & -> & T) end.
      destruct (n_item x') as [| | | | | | | | | | |op| | | | | | | | |]; cbn in T; try (intuition discriminate). destruct op; cbn in T; intuition discriminate.
    + repeat grow. congruence.
  - cbn [a_expression] in H. fields H. ands. repeat grow. cbn [strip_expression]. congruence.
  - cbn [a_expression] in H. cbn [strip_expression]. f_equal. eapply function_inj; eauto. intros; subst. left. cbn [expression_wf] in Wf, Wf'. tauto.
  - cbn [a_expression] in H. cbn [strip_expression]. f_equal. eapply class_inj; eauto. intros; subst. left. cbn [expression_wf] in Wf, Wf'. tauto.
Qed.

Lemma same_stag s s' st en st' en' : statement_wf s -> statement_wf s' -> eqv (a_statement st en s) (a_statement st' en' s') -> stag s = stag s'.
Proof. intros W W' H. destruct (heads_meet _ _ _ _ H (statement_heads st en s W) (statement_heads st' en' s' W')) as (t & -> & E). exact E. Qed.
Lemma decl_kind_inj k k' : eqv (a_decl_kind k) (a_decl_kind k') -> k = k'.
Proof. intros H. apply eqv_str in H. destruct k, k'; try reflexivity; discriminate H. Qed.
Lemma method_kind_inj k k' : eqv (a_method_kind k) (a_method_kind k') -> k = k'.
Proof. intros H. apply eqv_str in H. destruct k, k'; try reflexivity; discriminate H. Qed.
Lemma specifiers_inj ss : forall ss', Forall2 eqv (map a_specifier ss) (map a_specifier ss') -> map (strip_node strip_specifier) ss = map (strip_node strip_specifier) ss'.
Proof.
  induction ss as [|n ss IH]; intros [|n' ss'] H; cbn [map] in *; inversion H as [|x y l l' H1 H2 X Y]; [reflexivity|]. subst. f_equal; [|now apply IH]. clear - H1.
  unfold a_specifier in H1. unfold strip_node. f_equal. destruct (n_item n) as [i l|l|l], (n_item n') as [i' l'|l'|l']; apply eqv_obj in H1 as [T H1]; try reflexivity; try discriminate T; cbn [eqvs] in H1; ands; repeat grow; cbn [strip_specifier]; congruence.
Qed.
Lemma obody_inj (o o' : option (node (block statement))) : Forall inj (opt A_Body o) -> Forall wfs (opt A_Body o') ->
  eqv (match o with Some f => obj (n_start f) (n_end f) "BlockStatement" [("body"%string, a_list a_statement (b_body (n_item f)))] | None => jnull end)
      (match o' with Some f => obj (n_start f) (n_end f) "BlockStatement" [("body"%string, a_list a_statement (b_body (n_item f)))] | None => jnull end) ->
  option_map (strip_node (strip_block strip_statement)) o = option_map (strip_node (strip_block strip_statement)) o'.
Proof.
  destruct o as [n|], o' as [n'|]; cbn [opt option_map]; intros F W H; try reflexivity.
  - f_equal. apply body_inj; [exact (Forall_inv F)|exact (Forall_inv W)|exact H].
  - destruct (eqv_null_obj _ _ _ _ (eqv_sym _ _ H)).
  - destruct (eqv_null_obj _ _ _ _ H).
Qed.
Ltac grow2 := first [grow | match goal with
  | H : eqv (a_decl_kind _) (a_decl_kind _) |- _ => apply decl_kind_inj in H
  | H : eqv (a_method_kind _) (a_method_kind _) |- _ => apply method_kind_inj in H
  | H : eqv (match _ with Some l => a_ident l | None => jnull end) _ |- _ => apply opt_ident_inj in H
  | H : eqv (match _ with Some _ => obj _ _ _ _ | None => jnull end) _ |- _ => apply obody_inj in H; [|assumption|assumption]
  end].
Lemma step_stmt n : wfs (A_Stmt n) -> Forall inj (children (A_Stmt n)) -> inj (A_Stmt n).
Proof.
  intros W F n' st en st' en' W' H. assert (C := wfs_children _ W). assert (C' := wfs_children _ W'). destruct (wfs_here _ W) as [[Wf _] _]. destruct (wfs_here _ W') as [[Wf' _] _]. clear W W'.
  destruct n as [s e i], n' as [s' e' i']. cbn [n_item] in *. assert (T := same_stag _ _ _ _ _ _ Wf Wf' H).
  destruct i as [| |x|k ds|v|l|l|v|t c a|t b|b t|i t u b|l r b|l r b|b h f|b|l b|f|c|d c|ss src]; destruct i' as [| |x'|k' ds'|v'|l'|l'|v'|t' c' a'|t' b'|b' t'|i' t' u' b'|l' r' b'|l' r' b'|b' h' f'|b'|l' b'|f'|c'|d' c'|ss' src']; try discriminate T.
  all: kids F; kids C; kids C'; cbn [a_statement] in H; cbn [strip_statement].
  all: try solve [fields H; ands; repeat grow2; try reflexivity; congruence].
  - fields H. ands. unfold strip_block. repeat grow2. congruence.
  - f_equal. eapply function_inj; eauto. intros; subst. right. left. cbn [statement_wf] in Wf, Wf'. tauto.
  - f_equal. eapply class_inj; eauto. intros; subst. right. left. cbn [statement_wf] in Wf, Wf'. tauto.
  - fields H. destruct H as (_ & H & _ & H2 & _). apply eqv_arr in H. apply specifiers_inj in H. repeat grow2. congruence.
Qed.
Lemma step_any a : wfs a -> Forall inj (children a) -> inj a.
Proof.
  destruct a as [n|n|n|n|n|n|n|n|n|n|n|n|n|n|n|n|n]; try (intros; exact I); try apply step_expr; try apply step_stmt; intros W F.
  - intros n' st en st' en' W' H. apply wfs_children in W'. cbn [children] in *. eapply template_inj; eauto.
  - intros n' st en st' en' W' H. assert (C' := wfs_children _ W'). destruct (wfs_here _ W) as [_ Sh]. destruct (wfs_here _ W') as [_ Sh']. cbn [shown children] in *.
    destruct (n_item n) as [x|k v|k v|x], (n_item n') as [x'|k' v'|k' v'|x']; cbn [a_property strip_property] in *; kids F; kids C'; try (unfold a_identifier in H); apply eqv_obj in H as [T H]; try reflexivity; try discriminate T; cbn [eqvs] in H; ands; repeat grow; try discriminate.
    + congruence.
    + match goal with K : eqv (a_node a_key _) _ |- _ => apply key_inj in K; [|assumption|assumption|assumption] end. congruence.
    + match goal with K : eqv (a_node a_key _) _ |- _ => apply key_inj in K; [|assumption|assumption|congruence] end. congruence.
    + congruence.
  - intros n' W' Cp H. assert (C' := wfs_children _ W'). destruct (wfs_here _ W) as [[Wf _] _]. destruct (wfs_here _ W') as [[Wf' _] _]. unfold computed_key, a_node in *. cbn [children] in *.
    destruct (n_item n) as [x|x|x], (n_item n') as [x'|x'|x']; try discriminate Cp; cbn [a_key strip_property_key] in *; kids F; kids C'; ands; try (apply identifier_inj in H; subst x').
    + repeat grow. congruence.
    + reflexivity.
    + exfalso. eapply binary_key_differs; eauto.
    + exfalso. eapply binary_key_differs; eauto.
    + reflexivity.
  - intros n' st en st' en' W' H. assert (C' := wfs_children _ W'). cbn [children] in *.
    destruct (n_item n) as [|x|ps|es|x|l r], (n_item n') as [|x'|ps'|es'|x'|l' r']; cbn [a_pattern strip_pattern] in *; try (destruct H as (j & j' & X & X' & _); discriminate X || discriminate X'); kids F; kids C'; try (unfold a_identifier in H); apply eqv_obj in H as [T H]; try reflexivity; try discriminate T; cbn [eqvs] in H; ands; repeat grow; congruence.
  - intros n' st en st' en' W' H. assert (C' := wfs_children _ W'). destruct (wfs_here _ W) as [[Wf _] _]. destruct (wfs_here _ W') as [[Wf' _] _]. cbn [children] in *. eapply function_inj; eauto. intros. right. right. rewrite H0 in Wf. rewrite H1 in Wf'. tauto.
  - intros n' st en st' en' W' H. assert (C' := wfs_children _ W'). destruct (wfs_here _ W) as [_ Sh]. destruct (wfs_here _ W') as [_ Sh']. cbn [shown children] in *.
    destruct (n_item n) as [|sc k kd v|sc k v], (n_item n') as [|sc' k' kd' v'|sc' k' v']; cbn [a_member strip_class_member] in *; try (destruct H as (j & j' & X & X' & _); discriminate X || discriminate X').
    kids F. kids C'. fields H. ands. repeat grow2. match goal with K : eqv (a_node a_key _) _ |- _ => apply key_inj in K; [|assumption|assumption|congruence] end. congruence.
  - intros n' st en st' en' W' H. assert (C' := wfs_children _ W'). cbn [children] in *. unfold a_block in H. fields H. ands. cbn [n_item] in *. repeat grow. unfold strip_block. congruence.
  - intros n' st en st' en' W' H. assert (C' := wfs_children _ W'). cbn [children] in *. repeat grow. unfold strip_block. congruence.
  - intros n' st en st' en' W' H. assert (C' := wfs_children _ W'). cbn [children] in *. apply cases_inj in H; [|assumption|assumption]. unfold strip_block. congruence.
  - intros n' st en st' en' W' H. assert (C := wfs_children _ W). assert (C' := wfs_children _ W'). cbn [children] in *. destruct (n_item n) as [p i], (n_item n') as [p' i']. cbn [a_declarator strip_declarator] in *. kids F. kids C. kids C'. fields H. ands. repeat grow2. congruence.
  - intros n' st en st' en' W' H. assert (C := wfs_children _ W). assert (C' := wfs_children _ W'). destruct (heads_meet _ _ _ _ H (init_heads _ _ _ W) (init_heads _ _ _ W')) as (t & T & T'). cbn [children] in *. destruct (n_item n) as [k ds|x], (n_item n') as [k' ds'|x']; cbn [a_for_init strip_for_init] in *; kids F; kids C; kids C'.
    + fields H. ands. repeat grow2. congruence.
    + exfalso. subst t. destruct (n_item x') as [| | | | | | | | | | |op| | | | | | | | |]; cbn in T'; try (intuition discriminate). destruct op; cbn in T'; intuition discriminate.
    + exfalso. subst t. destruct (n_item x) as [| | | | | | | | | | |op| | | | | | | | |]; cbn in T; try (intuition discriminate). destruct op; cbn in T; intuition discriminate.
    + f_equal. unfold strip_node. f_equal. exact (proj1 F x' _ _ _ _ (proj1 C') H).
  - intros n' st en st' en' W' H. assert (C := wfs_children _ W). assert (C' := wfs_children _ W'). cbn [children] in *. destruct (n_item n) as [t b], (n_item n') as [t' b']. cbn [a_case strip_case] in *. kids F. kids C. kids C'. fields H. ands. repeat grow2. congruence.
  - intros n' st en st' en' W' H. assert (C' := wfs_children _ W'). cbn [children] in *. destruct (n_item n) as [p b], (n_item n') as [p' b']. cbn [a_catch strip_catch] in *. kids F. kids C'. fields H. ands. repeat grow2. congruence.
Qed.
Lemma tree_inj a : wfs a -> inj a.
Proof.
  revert a. apply (tree_ind (fun a => wfs a -> inj a)). intros a IH W. apply step_any; [exact W|]. assert (C := wfs_children _ W).
  rewrite Forall_forall in IH, C. apply Forall_forall. auto.
Qed.
Lemma module_inj m m' j j' : (forall a, in_module a m -> well_formed a /\ shown a) -> (forall a, in_module a m' -> well_formed a /\ shown a) ->
  a_module m = Done j -> a_module m' = Done j' -> wo j = wo j' -> same_tree m m'.
Proof.
  intros W W' E E' Q. assert (H : eqv (a_module m) (a_module m')) by (exists j, j'; auto). unfold a_module in H. fields H. destruct H as (_ & H & _).
  assert (G : forall (x : module), (forall a, in_module a x -> well_formed a /\ shown a) -> Forall wfs (map A_Stmt x)).
  { intros x Wx. apply Forall_map, Forall_forall. intros s I d Wd. apply Wx. exists s. auto. }
  unfold same_tree, strip_module. apply stmts_inj; [|now apply G|exact H]. specialize (G m W). revert G. apply Forall_impl. intros a. apply tree_inj.
Qed.
End Floats.
