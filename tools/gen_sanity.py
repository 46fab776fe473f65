#!/usr/bin/env python3
"""Writes rocq/theories/Sanity.v: the repository's own unit tests, run on the model.
Run from /verif."""
import re, json, sys
R = '/repo/'
def rd(p): return open(R + p).read()

def skip_ws(s, i):
    while True:
        while i < len(s) and s[i].isspace(): i += 1
        if s.startswith('//', i):
            i = s.index('\n', i)
        else:
            return i

def rust_string(s, i):
    """Parse a Rust string literal at s[i]; returns (value, next index)."""
    m = re.compile(r'r(#*)"').match(s, i)
    if m:
        h = m.group(1)
        e = s.index('"' + h, m.end())
        return s[m.end():e], e + 1 + len(h)
    assert s[i] == '"', s[i:i+30]
    i += 1
    out = []
    while s[i] != '"':
        if s[i] == '\\':
            c = s[i+1]
            if c == '\n':
                i += 2
                while s[i].isspace(): i += 1
                continue
            out.append({'n': '\n', 't': '\t', 'r': '\r', '"': '"', '\\': '\\', '0': '\0', "'": "'"}.get(c, '\\' + c))
            i += 2
        else:
            out.append(s[i]); i += 1
    return ''.join(out), i + 1

def balanced(s, i):
    depth = 0
    j = i
    while True:
        c = s[j]
        if c == '"' or (s.startswith('r#"', j)):
            _, j = rust_string(s, j); continue
        if s.startswith('//', j):
            j = s.index('\n', j); continue
        if c in '{[(': depth += 1
        if c in '}])':
            depth -= 1
            if depth == 0: return s[i:j+1], j + 1
        j += 1

def coq_bytes(v):
    b = v.encode()
    if all(32 <= x < 127 for x in b):
        return '(bs "%s")' % v.replace('"', '""')
    return '[' + '; '.join('x%02x' % x for x in b) + ']'

def coq_json(j):
    if j is None: return 'J_Null'
    if j is True: return 'J_Bool true'
    if j is False: return 'J_Bool false'
    if isinstance(j, int): return 'J_Int %d' % j
    if isinstance(j, float): return 'J_Float_any'
    if isinstance(j, str): return 'J_Str %s' % coq_bytes(j)
    if isinstance(j, list): return 'J_Arr [%s]' % '; '.join(coq_json(x) for x in j)
    return 'J_Obj [%s]' % '; '.join('(%s, %s)' % (coq_bytes(k), coq_json(v)) for k, v in j.items())

out = []
w = out.append
w('''(** The repository's own unit tests, executed on the model (tests, not proofs).
    Generated by tools/gen_sanity.py from the test modules in /repo. *)
From Coq Require Import List NArith Bool String.
From Coq.Strings Require Import Byte.
From Verif Require Import Bytes Token Lexer Ast Prog Parser Codegen Astgen ErrorFmt Visitor.
Import ListNotations.

Definition ascii_alnum (n : N) : bool := N.ltb 127 n.

(** JSON values are compared without regard to the order of the fields. *)
Fixpoint json_eqb (a b : json) {struct a} : bool :=
  match a, b with
  | J_Null, J_Null => true
  | J_Bool x, J_Bool y => Bool.eqb x y
  | J_Int x, J_Int y => N.eqb x y
  | J_Float x, J_Float y => match y with [] => true | _ => str_eqb x y end
  | J_Str x, J_Str y => str_eqb x y
  | J_Arr l, J_Arr r =>
      (fix go (l r : list json) : bool :=
         match l, r with
         | [], [] => true
         | x :: l', y :: r' => json_eqb x y && go l' r'
         | _, _ => false
         end) l r
  | J_Obj l, J_Obj r =>
      Nat.eqb (List.length l) (List.length r) &&
      (fix go (l : list (str * json)) : bool :=
         match l with
         | [] => true
         | (k, v) :: l' =>
             match find (fun p => str_eqb (fst p) k) r with
             | Some (_, v') => json_eqb v v'
             | None => false
             end && go l'
         end) l
  | _, _ => false
  end.
Definition J_Float_any : json := J_Float [].

Definition check_estree (src : str) (expected : json) : bool :=
  match parse_fuel ascii_alnum 200 src with
  | Done (ParseOk m) =>
      match a_module m with Done j => json_eqb j expected | _ => false end
  | _ => false
  end.
Definition check_codegen (minify : bool) (src expected : str) : bool :=
  match parse_fuel ascii_alnum 200 src with
  | Done (ParseOk m) =>
      match codegen m minify with Done s => str_eqb s expected | _ => false end
  | _ => false
  end.
Fixpoint check_tokens (lx : lexer) (l : list (token * str)) : bool :=
  match l with
  | [] => token_eqb (lx_token lx) T_EndOfProgram
  | (t, s) :: l' =>
      token_eqb (lx_token lx) t && str_eqb (token_as_str lx) s &&
      match consume ascii_alnum lx with Done lx' => check_tokens lx' l' | _ => false end
  end.
Definition check_lex (src : str) (l : list (token * str)) : bool :=
  match lexer_new ascii_alnum src with Done lx => check_tokens lx l | _ => false end.
''')

# lexer tests
s = rd('ratel/src/lexer/mod.rs')
t = s[s.index('mod test'):]
n = 0
w('(** /repo/ratel/src/lexer/mod.rs *)')
for m in re.finditer(r'assert_lex\(', t):
    i = skip_ws(t, m.end())
    src, i = rust_string(t, i)
    i = skip_ws(t, i); assert t[i] == ','; i = skip_ws(t, i + 1)
    while t[i] in '&': i += 1
    body, i = balanced(t, i)
    toks = []
    for mm in re.finditer(r'\((\w+), ', body):
        v, _ = rust_string(body, mm.end())
        toks.append('(T_%s, %s)' % (mm.group(1), coq_bytes(v)))
    n += 1
    w('Example lex_%02d : check_lex %s [%s] = true. Proof. vm_compute; reflexivity. Qed.' % (n, coq_bytes(src), '; '.join(toks)))

# codegen
n = 0
for f in ['lib', 'expression', 'statement', 'function']:
    s = rd('ratel-codegen/src/%s.rs' % f)
    if 'mod test' not in s: continue
    t = s[s.index('mod test'):]
    w('(** /repo/ratel-codegen/src/%s.rs *)' % f)
    t = t.replace('let expected = "({\\n    foo: true,\\n    bar: false\\n});";', '').replace('true, bar: false })", expected)', 'true, bar: false })", "({\\n    foo: true,\\n    bar: false\\n});")')
    for m in re.finditer(r'assert_(min|pretty)\(', t):
        i = skip_ws(t, m.end())
        a, i = rust_string(t, i)
        i = skip_ws(t, i); assert t[i] == ','; i = skip_ws(t, i + 1)
        b, i = rust_string(t, i)
        n += 1
        w('Example codegen_%03d : check_codegen %s %s %s = true. Proof. vm_compute; reflexivity. Qed.' % (n, 'true' if m.group(1) == 'min' else 'false', coq_bytes(a), coq_bytes(b)))

# astgen
n = 0
for f in ['mod', 'expression', 'statement', 'value']:
    s = rd('ratel/src/astgen/%s.rs' % f)
    t = s[s.index('mod test'):]
    w('(** /repo/ratel/src/astgen/%s.rs *)' % f)
    for m in re.finditer(r'expect_parse!\(', t):
        i = skip_ws(t, m.end())
        a, i = rust_string(t, i)
        i = skip_ws(t, i); assert t[i] == ','; i = skip_ws(t, i + 1)
        body, i = balanced(t, i)
        body = re.sub(r'//[^\n"]*\n', '\n', body)
        body = re.sub(r',(\s*[}\]])', r'\1', body)
        try:
            j = json.loads(body)
        except Exception as e:
            print('skip', f, a, e, file=sys.stderr); continue
        n += 1
        w('Example estree_%03d : check_estree %s (%s) = true. Proof. vm_compute; reflexivity. Qed.' % (n, coq_bytes(a), coq_json(j)))

w('''
(** /repo/ratel/src/error.rs:121-132 *)
Example display_1 :
  display_error (bs "foo") 0 1
  = Done (bs "Unexpected token at 1:1" ++ [x0a; x0a] ++ bs "> 1 | foo" ++ [x0a] ++ bs "    | ^" ++ [x0a]).
Proof. vm_compute; reflexivity. Qed.

(** /repo/ratel-transformer/src/scope.rs:150-174 and the visitor tests in
    /repo/ratel-visitor/src/lib.rs:310-480. *)
Definition visit_of (src : str) : visit :=
  match parse_fuel ascii_alnum 200 src with Done (ParseOk m) => visit_module m | _ => [] end.
(** (scopes opened, maximal depth, uses with depth, declarations with depth) *)
Fixpoint scope_test (d mx : nat) (v : visit)
    : list scope_kind * nat * list (str * nat) * list (str * nat) :=
  match v with
  | [] => ([], mx, [], [])
  | c :: v' =>
      match c with
      | V_enter_scope k =>
          let '(ks, m, u, dl) := scope_test (S d) (Nat.max mx (S d)) v' in (k :: ks, m, u, dl)
      | V_leave_scope => scope_test (d - 1) mx v'
      | V_reference_use s =>
          let '(ks, m, u, dl) := scope_test d mx v' in (ks, m, (s, d) :: u, dl)
      | V_reference_declaration s =>
          let '(ks, m, u, dl) := scope_test d mx v' in (ks, m, u, (s, d) :: dl)
      | _ => scope_test d mx v'
      end
  end.
Definition st (s : string) := scope_test 0 0 (visit_of (bs s)).
Example visit_1 : st "{{{}}}" = ([SK_Block; SK_Block; SK_Block], 3, [], []).
Proof. vm_compute; reflexivity. Qed.
Example visit_2 : st "let foo; const bar = 42, doge;"
  = ([], 0, [], [(bs "foo", 0); (bs "bar", 0); (bs "doge", 0)]).
Proof. vm_compute; reflexivity. Qed.
Example visit_3 : st "let foo; { let foo; { let foo; }}"
  = ([SK_Block; SK_Block], 2, [], [(bs "foo", 0); (bs "foo", 1); (bs "foo", 2)]).
Proof. vm_compute; reflexivity. Qed.
Example visit_4 : st "doge = to + the + moon"
  = ([], 0, [(bs "doge", 0); (bs "to", 0); (bs "the", 0); (bs "moon", 0)], []).
Proof. vm_compute; reflexivity. Qed.
Example visit_5 : st "doge; { to; { the; { moon; }}}"
  = ([SK_Block; SK_Block; SK_Block], 3, [(bs "doge", 0); (bs "to", 1); (bs "the", 2); (bs "moon", 3)], []).
Proof. vm_compute; reflexivity. Qed.
Example visit_6 : st "function foo() {} class Bar {}"
  = ([SK_Function], 1, [], [(bs "foo", 0); (bs "Bar", 0)]).
Proof. vm_compute; reflexivity. Qed.
Example visit_7 : st "(function foo() {}); (class Bar {});" = ([SK_Function], 1, [], []).
Proof. vm_compute; reflexivity. Qed.
Example visit_8 : st "class Doge {}" = ([], 0, [], [(bs "Doge", 0)]).
Proof. vm_compute; reflexivity. Qed.
Example visit_9 : st "function doge() { foo; return { baz() { bar; } }; }"
  = ([SK_Function; SK_Function], 2, [(bs "foo", 1); (bs "bar", 2)], [(bs "doge", 0)]).
Proof. vm_compute; reflexivity. Qed.
Example visit_10 : st "const doge = { to, the, moon };"
  = ([], 0, [(bs "to", 0); (bs "the", 0); (bs "moon", 0)], [(bs "doge", 0)]).
Proof. vm_compute; reflexivity. Qed.
Example visit_11 : st "function doge(to, the) { const moon; }"
  = ([SK_Function], 1, [], [(bs "doge", 0); (bs "to", 1); (bs "the", 1); (bs "moon", 1)]).
Proof. vm_compute; reflexivity. Qed.
Example parents_1 :
  List.length (filter (fun c => match c with V_push_parent _ => true | _ => false end)
                      (visit_of (bs "{{{1+2}}}"))) = 5.
Proof. vm_compute; reflexivity. Qed.
Example scope_1 :
  match parse_fuel ascii_alnum 100 (bs "function test_function(bar) { doge; { moon; } return 10; }") with
  | Done (ParseOk m) => analyze m
  | _ => Panicked
  end
  = Done (Scope SK_Function false [] [bs "test_function"]
            [Scope SK_Function false [bs "doge"] [bs "bar"]
               [Scope SK_Block false [bs "moon"] [] []]], []).
Proof. vm_compute; reflexivity. Qed.
''')
open('rocq/theories/Sanity.v', 'w').write('\n'.join(out) + '\n')
