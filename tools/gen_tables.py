#!/usr/bin/env python3
"""Extracts constant tables from /repo/lib C sources into rocq/theories/Tables.v.
Only text processing; the C code is not compiled or run."""
import re,sys
R='/repo/lib/'
OUT=sys.argv[1] if len(sys.argv)>1 else '/verif/rocq/theories/Tables.v'
def rd(f): return open(R+f).read()
def strip_comments(s): return re.sub(r'/\*.*?\*/','',s,flags=re.S)
def body(src,decl):
    """text between the braces of the initializer of `decl`, with line numbers"""
    i=src.index(decl); j=src.index('{',i); d=0; k=j
    incmt=False; instr=None
    while True:
        if src.startswith('/*',k) and instr is None:
            k=src.index('*/',k)+2; continue
        c=src[k]
        if c=='"':
            k=src.index('"',k+1)+1; continue
        if c=='{': d+=1
        if c=='}':
            d-=1
            if d==0: break
        k+=1
    l1=src.count('\n',0,i)+1; l2=src.count('\n',0,k)+1
    return src[j+1:k],l1,l2
def ints(t): return [int(x) for x in re.findall(r'-?\d+',t)]
out=[]
def lst(xs,per=16):
    ls=[]
    for i in range(0,len(xs),per): ls.append('; '.join(xs[i:i+per]))
    return '[ '+';\n  '.join(ls)+' ]'
def z(n): return str(n) if n>=0 else '(%d)'%n
def bl(s): return '['+'; '.join(str(b) for b in s.encode('latin1'))+']'
def emit(cmt,name,ty,val): out.append('(* %s *)\nDefinition %s : %s :=\n  %s.\n'%(cmt,name,ty,val))
def simple(f,decl,name):
    b,l1,l2=body(rd(f),decl)
    xs=ints(strip_comments(b)); assert len(xs)==256,(name,len(xs))
    emit('lib/%s:%d-%d'%(f,l1,l2),name,'list Z',lst([z(x) for x in xs]))
simple('nghttp3_str.c','DOWNCASE_TBL[]','downcase_tbl')
simple('nghttp3_http.c','VALID_AUTHORITY_CHARS[]','valid_authority_chars')
simple('nghttp3_http.c','VALID_METHOD_CHARS[]','valid_method_chars')
simple('nghttp3_http.c','VALID_PATH_CHARS[]','valid_path_chars')
simple('nghttp3_http.c','VALID_HD_NAME_CHARS[]','valid_hd_name_chars')
simple('nghttp3_http.c','VALID_HD_VALUE_CHARS[]','valid_hd_value_chars')
# tokens
h=strip_comments(rd('includes/nghttp3/nghttp3.h'))
i=h.index('NGHTTP3_QPACK_TOKEN__AUTHORITY'); j=h.index('}',i)
tok={}; cur=-1
for m in re.finditer(r'(NGHTTP3_QPACK_TOKEN_\w+)\s*(?:=\s*(\d+))?\s*,?',h[i:j]):
    cur=int(m.group(2)) if m.group(2) else cur+1
    tok[m.group(1)]=cur
out.append('(* lib/includes/nghttp3/nghttp3.h:776-1059 nghttp3_qpack_token *)')
for t,v in tok.items(): out.append('Definition %s : Z := %d.'%(t.replace('NGHTTP3_QPACK_TOKEN_','TOKEN_'),v))
out.append('')
q=rd('nghttp3_qpack.c')
b,l1,l2=body(q,'token_stable[]')
es=re.findall(r'MAKE_STATIC_ENT\((\d+),\s*(\w+),\s*(\d+)u\)',b)
emit('lib/nghttp3_qpack.c:%d-%d token_stable: (absidx, token, hash)'%(l1,l2),'token_stable','list (Z * Z * Z)',
  lst(['(%s, %d, %s)'%(a,tok[t],hh) for a,t,hh in es],4))
b,l1,l2=body(q,'nghttp3_qpack_static_header stable[]')
hs=re.findall(r'MAKE_STATIC_HD\(\s*"([^"]*)",\s*"([^"]*)",\s*(\w+)\)',b)
assert len(hs)==99 and len(es)==99,(len(hs),len(es))
emit('lib/nghttp3_qpack.c:%d-%d stable: (name, value, token)'%(l1,l2),'stable','list (list Z * list Z * Z)',
  lst(['(%s, %s, %d)'%(bl(n),bl(v),tok[t]) for n,v,t in hs],1))
# qpack_lookup_token switch
i=q.index('static int32_t qpack_lookup_token'); k=q.index('\n}\n',i)
l1=q.count('\n',0,i)+1; l2=q.count('\n',0,k)+2
cs=[]; ln=None; ch=None
for m in re.finditer(r"case (\d+):|switch \(name\[(\d+)\]\)|case '(.)':|memeq\(\"([^\"]*)\", name, (\d+)\)|return (NGHTTP3_QPACK_TOKEN_\w+)",q[i:k]):
    if m.group(1): ln=int(m.group(1))
    elif m.group(2): pos=int(m.group(2))
    elif m.group(3): ch=m.group(3)
    elif m.group(4) is not None: pre=m.group(4); n=int(m.group(5)); assert len(pre)==n
    else: cs.append((ln,pos,ord(ch),n,pre,tok[m.group(6)]))
emit('lib/nghttp3_qpack.c:%d-%d qpack_lookup_token: nested switch flattened to\n   (case namelen, index of switch char, case char, memeq length, memeq literal, token)'%(l1,l2),
 'lookup_token_cases','list (Z * Z * Z * Z * list Z * Z)',lst(['(%d, %d, %d, %d, %s, %d)'%(a,p,c,n,bl(s),t) for a,p,c,n,s,t in cs],1))
# huffman
hd=rd('nghttp3_qpack_huffman_data.c')
b,l1,l2=body(hd,'huffman_sym_table[]')
sy=re.findall(r'\{(\d+),\s*(0x[0-9a-f]+)u\}',b); assert len(sy)==257,len(sy)
emit('lib/nghttp3_qpack_huffman_data.c:%d-%d huffman_sym_table: (nbits, code)'%(l1,l2),'huffman_sym_table','list (Z * Z)',
 lst(['(%s, %d)'%(n,int(c,16)) for n,c in sy],4))
b,l1,l2=body(hd,'qpack_huffman_decode_table[][16]')
b=strip_comments(b)
nd=re.findall(r'\{\s*(0x[0-9a-f]+|\d+),\s*(\d+)\}',b); assert len(nd)==257*16,len(nd)
rows=[]
for r in range(257):
    rows.append('['+'; '.join('(%d, %s)'%(int(a,0),s) for a,s in nd[r*16:r*16+16])+']')
emit('lib/nghttp3_qpack_huffman_data.c:%d-%d qpack_huffman_decode_table: (fstate, sym)'%(l1,l2),'huffman_decode_table','list (list (Z * Z))',lst(rows,1))
open(OUT,'w').write('(* GENERATED by tools/gen_tables.py from the C sources; do not edit. *)\nFrom Coq Require Import ZArith List.\nImport ListNotations.\nOpen Scope Z_scope.\n\n'+'\n'.join(out))
print(len(cs),'token cases',len(tok),'tokens')
