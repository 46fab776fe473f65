import re
src=open('/repo/ratel/src/lexer/token.rs').read()
body=src[src.index('pub enum Token {'):src.index('impl Token')]
toks=[l.strip().split(',')[0] for l in body.splitlines()[1:] if ',' in l]
assert len(toks)==108, len(toks)
words=re.findall(r'\b([A-Z]\w+)\s*(?:\||=>)', src[src.index('match self {'):])
op=open('/repo/ratel/src/ast/operator.rs').read()
ops=[l.strip().split(',')[0] for l in op[op.index('pub enum OperatorKind'):op.index('#[derive(Debug, PartialEq, Clone)]\npub enum OperatorCategory')].splitlines()[1:] if ',' in l]
assert len(ops)==48,len(ops)
def sect(a,b):
    i=op.index(a); return op[i:op.index(b,i) if b else len(op)]
ft=re.findall(r'(\w+)\s*=> Some\((\w+)\)',sect('pub fn from_token','pub fn as_str'))
st=re.findall(r'(\w+)\s*=> "([^"]+)"',sect('pub fn as_str','pub fn binding_power'))
def groups(text):
    # returns list of (names, value)
    text=text[text.index('match self {')+len('match self {'):]
    res=[];cur=[]
    for m in re.finditer(r'([A-Z]\w*|_)\s*(\||=>\s*([\w:]+))',text):
        cur.append(m.group(1))
        if m.group(3): res.append((cur,m.group(3)));cur=[]
    return res
bp=groups(sect('pub fn binding_power','pub fn prefix'))
pre=groups(sect('pub fn prefix','pub fn infix'))
inf=groups(sect('pub fn infix','pub fn assignment'))
asg=groups(sect('pub fn assignment','pub fn category'))
cat=groups(sect('pub fn category',None))
o=[]
o.append('''(** Tokens and operators.  Generated by tools/gen_token.py from
    /repo/ratel/src/lexer/token.rs and /repo/ratel/src/ast/operator.rs. *)
From Coq Require Import List NArith String.
From Verif Require Import Bytes.
Import ListNotations.
Open Scope nat_scope.

(** [Token], /repo/ratel/src/lexer/token.rs:14-124 (same order, 108 variants). *)
Inductive token : Set :=''')
for t in toks:o.append('| T_'+t)
o[-1]+='.'
o.append('\nDefinition all_tokens : list token :=\n  ['+'; '.join('T_'+t for t in toks)+'].\n')
o.append('''(** [token as usize / isize]: the discriminant used to index the handler tables. *)
Definition token_index (t : token) : nat :=
  match t with''')
for i,t in enumerate(toks):o.append('  | T_%s => %d'%(t,i))
o.append('  end.\n')
o.append('''(** Derived [PartialEq] on [Token]. *)
Definition token_eqb (a b : token) : bool := Nat.eqb (token_index a) (token_index b).

Definition token_eq_dec (a b : token) : {a = b} + {a <> b}.
Proof. decide equality. Defined.

(** [Token::is_word], /repo/ratel/src/lexer/token.rs:126-172. *)
Definition is_word (t : token) : bool :=
  match t with''')
words=[w for w in words if w in toks]
o.append('  | '+' | '.join('T_'+w for w in words)+' => true\n  | _ => false\n  end.\n')
o.append('''(** [OperatorKind], /repo/ratel/src/ast/operator.rs:4-54. *)
Inductive operator : Set :=''')
for t in ops:o.append('| O_'+t)
o[-1]+='.'
o.append('\nDefinition all_operators : list operator :=\n  ['+'; '.join('O_'+t for t in ops)+'].\n')
o.append('''Definition operator_index (o : operator) : nat :=
  match o with''')
for i,t in enumerate(ops):o.append('  | O_%s => %d'%(t,i))
o.append('  end.\n')
o.append('''(** Derived [PartialEq] on [OperatorKind]. *)
Definition operator_eqb (a b : operator) : bool := Nat.eqb (operator_index a) (operator_index b).

Definition operator_eq_dec (a b : operator) : {a = b} + {a <> b}.
Proof. decide equality. Defined.

(** [OperatorKind::from_token], operator.rs:68-121. *)
Definition operator_from_token (t : token) : option operator :=
  match t with''')
for a,b in ft:o.append('  | T_%s => Some O_%s'%(a,b))
o.append('  | _ => None\n  end.\n')
o.append('''(** [OperatorKind::as_str], operator.rs:123-176. *)
Definition operator_str (o : operator) : str :=
  match o with''')
for a,b in st:o.append('  | O_%s => bs "%s"'%(a,b))
o.append('  end.\n')
def emit(name,ty,g,doc,f):
    o.append('(** %s *)\nDefinition %s (o : operator) : %s :=\n  match o with'%(doc,name,ty))
    for names,v in g:
        if names==['_']: o.append('  | _ => %s'%f(v))
        else:o.append('  | '+' | '.join('O_'+n for n in names)+' => '+f(v))
    o.append('  end.\n')
emit('operator_bp','nat',bp,'[OperatorKind::binding_power], operator.rs:178-242.',lambda v:v)
emit('operator_prefix','bool',pre,'[OperatorKind::prefix], operator.rs:244-261.',lambda v:v)
emit('operator_infix','bool',inf,'[OperatorKind::infix], operator.rs:263-308.',lambda v:v)
emit('operator_assignment','bool',asg,'[OperatorKind::assignment], operator.rs:310-329.',lambda v:v)
o.append('(** [OperatorCategory], operator.rs:57-63. *)\nInductive opcategory : Set := CatMinus | CatPlus | CatSafe | CatWord.\n')
emit('operator_category','opcategory',cat,'[OperatorKind::category], operator.rs:331-347.',lambda v:'Cat'+v.split('::')[1])
open('/verif/rocq/theories/Token.v','w').write('\n'.join(o))
