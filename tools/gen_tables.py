"""Generates theories/Tables.v: the lookup tables of the lexer, verbatim from
/repo/ratel/src/lexer/mod.rs, util.rs and /repo/ratel/src/parser/{nested,expression,statement}.rs."""
import re
lex=open('/repo/ratel/src/lexer/mod.rs').read()
util=open('/repo/ratel/src/lexer/util.rs').read()
nested=open('/repo/ratel/src/parser/nested.rs').read()
expr=open('/repo/ratel/src/parser/expression.rs').read()
stmt=open('/repo/ratel/src/parser/statement.rs').read()
def entries(text):
    text=re.sub(r'//.*','',text)
    return [x for x in re.split(r'[\s,]+',text) if x]
def table(src,head):
    i=src.index(head); i=src.index('[',i+len(head)-1) if not head.endswith('[') else i+len(head)-1
    j=src.index('];',i) if '];' in src[i:i+30000] else None
    return entries(src[i+1:j])
o=['''(** Lookup tables, generated by tools/gen_tables.py from the Rust source. *)
From Coq Require Import List.
Import ListNotations.
''']
def wrap(xs):
    rows=[xs[i:i+12] for i in range(0,len(xs),12)]
    return '  ['+';\n   '.join('; '.join(r) for r in rows)+'].\n'
# byte handlers
i=lex.index('static BYTE_HANDLERS'); i=lex.index('= [',i)+3; j=lex.index('];',i)
bh=entries(lex[i:j]); assert len(bh)==256
names=[]
for x in bh:
    if x!='___' and x not in names:names.append(x)
o.append('(** Names of the byte handlers, /repo/ratel/src/lexer/mod.rs:82-599 and labels.rs:36-246. *)\nInductive byte_handler : Set := '+' | '.join('H_'+n for n in names)+'.\n')
o.append('(** [BYTE_HANDLERS], /repo/ratel/src/lexer/mod.rs:59-78 ([None] for [___]). *)\nDefinition BYTE_HANDLERS : list (option byte_handler) :=\n'+wrap(['None' if x=='___' else 'Some H_'+x for x in bh]))
# legal in label
i=util.index('static TABLE'); i=util.index('= [',i)+3; j=util.index('];',i)
ll=entries(util[i:j]); assert len(ll)==256
o.append('(** [TABLE] of [legal_in_label], /repo/ratel/src/lexer/util.rs:12-30. *)\nDefinition LABEL_TABLE : list bool :=\n'+wrap(['false' if x=='__' else 'true' for x in ll]))
i=lex.index('static TABLE'); i=lex.index('= [',i)+3; j=lex.index('];',i)
al=entries(lex[i:j]); assert len(al)==128
o.append('(** [TABLE] of [read_accessor], /repo/ratel/src/lexer/mod.rs:864-875. *)\nDefinition ACCESSOR_TABLE : list bool :=\n'+wrap(['false' if x=='__' else 'true' for x in al]))
# nested
bps=re.findall(r'bp!\((\w+), \[(.*?)\]\)',nested,re.S)
tabs=[(n,entries(b)) for n,b in bps]
names=[]
for n,t in tabs:
    assert len(t)==108,(n,len(t))
    for x in t:
        if x!='____' and x not in names:names.append(x)
o.append('(** The binding-power types, /repo/ratel/src/parser/nested.rs:41-225. *)\nInductive bp : Set := '+' | '.join('BP_'+n for n,_ in tabs)+'.\n')
o.append('(** Names of the nested handlers, nested.rs:229-429. *)\nInductive nested_handler : Set := '+' | '.join('N_'+n for n in names)+'.\n')
lines=nested.splitlines()
def lineno(pat):
    return next(k+1 for k,l in enumerate(lines) if pat in l)
for n,t in tabs:
    o.append('(** [%s::LUT], nested.rs:%d. *)\nDefinition LUT_%s : list (option nested_handler) :=\n'%(n,lineno('bp!(%s,'%n),n)+wrap(['None' if x=='____' else 'Some N_'+x for x in t]))
o.append('Definition LUT (b : bp) : list (option nested_handler) :=\n  match b with\n'+'\n'.join('  | BP_%s => LUT_%s'%(n,n) for n,_ in tabs)+'\n  end.\n')
# expr contexts
cts=[]
for h in ['DEF_CONTEXT','ARRAY_CONTEXT','CALL_CONTEXT']:
    i=expr.index('static '+h); i=expr.index('&[',i)+2; j=expr.index('];',i)
    t=entries(expr[i:j]); assert len(t)==108
    cts.append((h,t))
names=[]
for n,t in cts:
    for x in t:
        if x not in names:names.append(x)
nm=lambda p,x: p+('____' if x=='____' else x)
o.append('(** Names of the expression handlers, /repo/ratel/src/parser/expression.rs:98-220 ([X_____] is [____]). *)\nInductive expr_handler : Set := '+' | '.join(nm('X_',n) for n in names)+'.\n')
el=expr.splitlines()
for n,t in cts:
    ln=next(k+1 for k,l in enumerate(el) if 'static '+n in l)
    o.append('(** [%s], expression.rs:%d. *)\nDefinition %s : list expr_handler :=\n'%(n,ln,n)+wrap([nm('X_',x) for x in t]))
i=stmt.index('static STMT_HANDLERS'); i=stmt.index('= [',i)+3; j=stmt.index('];',i)
t=entries(stmt[i:j]); assert len(t)==108
names=[]
for x in t:
    if x not in names:names.append(x)
o.append('(** Names of the statement handlers, /repo/ratel/src/parser/statement.rs:64-105. *)\nInductive stmt_handler : Set := '+' | '.join(nm('S_',n) for n in names)+'.\n')
o.append('(** [STMT_HANDLERS], statement.rs:18-45. *)\nDefinition STMT_HANDLERS : list stmt_handler :=\n'+wrap([nm('S_',x) for x in t]))
open('rocq/theories/Tables.v','w').write('\n'.join(o))
