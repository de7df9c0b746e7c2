#!/usr/bin/env python3
"""Generates rocq/theories/HuffPaths.v: for every state of the decoding automaton the
path (bits since the last symbol) it stands for.  Proof data only: every entry is
re-checked in HuffProofs.v."""
import re, os
root = os.path.dirname(os.path.dirname(os.path.abspath(__file__)))
t = open(root + '/rocq/theories/Tables.v').read()
def grab(name):
    s = t[t.index('Definition ' + name + ' :'):]
    s = s[s.index(':=') + 2:]
    return s[:s.index('].\n') + 1] if name != 'huffman_decode_table' else s[:s.index('].\n')+1]
sym = [tuple(map(int, x)) for x in re.findall(r'\((\d+), (\d+)\)', grab('huffman_sym_table'))]
nd = [tuple(map(int, x)) for x in re.findall(r'\((\d+), (\d+)\)', grab('huffman_decode_table'))]
assert len(sym) == 257 and len(nd) == 257 * 16
code = {}
for s, (n, c) in enumerate(sym):
    code[format(c >> (32 - n), '0%db' % n)] = s
paths = {0: ''}
todo = [0]
while todo:
    s = todo.pop(0)
    for n in range(16):
        fs, sy = nd[s * 16 + n]
        tgt = fs & 0x1ff
        if tgt == 256: continue
        cur = paths[s]; em = None
        for b in format(n, '04b'):
            cur += b
            if cur in code:
                assert em is None; em = code[cur]; cur = ''
        assert (em is not None) == bool(fs & 0x8000) and (em is None or em == sy)
        if tgt in paths: assert paths[tgt] == cur
        else: paths[tgt] = cur; todo.append(tgt)
assert len(paths) == 256, len(paths)
with open(root + '/rocq/theories/HuffPaths.v', 'w') as f:
    f.write('(* GENERATED by tools/gen_huffpaths.py; proof data, re-checked in HuffProofs.v. *)\n'
            'From Coq Require Import List.\nImport ListNotations.\n'
            'Definition huff_paths : list (list bool) :=\n [ ')
    f.write(';\n   '.join('[' + ';'.join('true' if b == '1' else 'false' for b in paths[i]) + ']' for i in range(256)))
    f.write(' ].\n')
