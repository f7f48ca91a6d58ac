#!/usr/bin/env python3
"""Transcribe u5e's data files into Coq.

Usage: tools/gen_tables.py /repo/src/u5e/props rocq/theories

Model side  (DataTables.v): the five *_data.hpp files, row by row, in file order.
Spec side   (UcdTables.v) : UnicodeData.txt (fields 0, 3, 5),
                            GraphemeBreakProperty.txt, CompositionExclusions.txt,
                            in file order, parsed without the repository's scripts.
No computation other than parsing (hex -> decimal) is done here.
"""
import re, sys
src, dst = sys.argv[1].rstrip('/') + '/', sys.argv[2].rstrip('/') + '/'

def wrap(items, per=1):
    return '[\n' + ';\n'.join(items) + '\n]'

def hpp(f):
    return [re.findall(r'\d+', l) for l in open(src + f) if l.strip()]

out = ['(** GENERATED by tools/gen_tables.py from src/u5e/props/*_data.hpp.  Model side:',
       '    the arrays [data] / [ranges] of src/u5e/props/*.cpp, row by row in file order. *)',
       'From Coq Require Import List ZArith.', 'Import ListNotations.', 'Open Scope Z_scope.', '',
       '(** include/u5e/props/grapheme_cluster_break.hpp:20-39; enumerator X is written G_X *)',
       'Inductive gcb : Set :=']
ENUM = 'OTHER PREPEND CR LF CONTROL EXTEND REGIONAL_INDICATOR SPACINGMARK L V T LV LVT E_BASE E_MODIFIER ZWJ GLUE_AFTER_ZWJ E_BASE_GAZ'.split()
out.append('| ' + ' | '.join('G_' + e for e in ENUM) + '.')  # enumerator X is written G_X
for name, f in (('canonical_combining_class_data', 'canonical_combining_class_data.hpp'),
                ('canonical_decomposition_mapping_data', 'canonical_decomposition_mapping_data.hpp'),
                ('compatibility_and_canonical_decomposition_mapping_data', 'compatibility_and_canonical_decomposition_mapping_data.hpp'),
                ('canonical_composition_mapping_data', 'canonical_composition_mapping_data.hpp')):
    rows = hpp(f)
    out += ['', '(** src/u5e/props/%s, %d rows *)' % (f, len(rows)),
            'Definition %s : list (list Z) := %s.' % (name, wrap(['[' + ';'.join(r) + ']' for r in rows]))]
g = []
for l in open(src + 'grapheme_cluster_break_data.hpp'):
    if not l.strip(): continue
    m = re.match(r'\{ (\d+), (\d+), grapheme_cluster_break::prop_value_type::(\w+) \}', l)
    g.append('(%s,%s,G_%s)' % (m[1], m[2], m[3]))
out += ['', '(** src/u5e/props/grapheme_cluster_break_data.hpp, %d rows (range_start, range_end, value) *)' % len(g),
        'Definition grapheme_cluster_break_data : list (Z * Z * gcb) := %s.' % wrap(g), '']
open(dst + 'DataTables.v', 'w').write('\n'.join(out))

out = ['(** GENERATED by tools/gen_tables.py from UnicodeData.txt, GraphemeBreakProperty.txt',
       '    and CompositionExclusions.txt (Unicode 9.0.0).  Specification side. *)',
       'From Coq Require Import List ZArith.', 'Import ListNotations.', 'From Verif Require Import DataTables.', 'Open Scope Z_scope.', '',
       '(** Formatting tag of a decomposition mapping (UnicodeData.txt field 5). *)']
tags, ccc, dec = [], [], []
for l in open(src + 'UnicodeData.txt'):
    u = l.rstrip('\n').split(';')
    c = int(u[0], 16)
    if u[3] != '0': ccc.append('(%d,%s)' % (c, u[3]))
    if u[5]:
        w = u[5].split()
        t = 'Canonical'
        if w[0].startswith('<'):
            t = 'Tag_' + w[0][1:-1]; w = w[1:]
        if t not in tags: tags.append(t)
        dec.append('(%d,%s,[%s])' % (c, t, ';'.join(str(int(x, 16)) for x in w)))
out += ['Inductive dtag : Set := ' + ' | '.join(tags) + '.', '',
        '(** (codepoint, Canonical_Combining_Class) for each line of UnicodeData.txt whose field 3 is not 0. *)',
        'Definition ucd_ccc : list (Z * Z) := %s.' % wrap(ccc), '',
        '(** (codepoint, tag, mapping) for each line of UnicodeData.txt whose field 5 is not empty. *)',
        'Definition ucd_decomposition : list (Z * dtag * list Z) := %s.' % wrap(dec), '']
ex = [str(int(l.split('#')[0].strip(), 16)) for l in open(src + 'CompositionExclusions.txt') if l.split('#')[0].strip()]
out += ['(** CompositionExclusions.txt *)', 'Definition ucd_composition_exclusions : list Z := [%s].' % ';'.join(ex), '']
NAME = {'Prepend': 'PREPEND', 'CR': 'CR', 'LF': 'LF', 'Control': 'CONTROL', 'Extend': 'EXTEND',
        'Regional_Indicator': 'REGIONAL_INDICATOR', 'SpacingMark': 'SPACINGMARK', 'L': 'L', 'V': 'V', 'T': 'T',
        'LV': 'LV', 'LVT': 'LVT', 'E_Base': 'E_BASE', 'E_Modifier': 'E_MODIFIER', 'ZWJ': 'ZWJ',
        'Glue_After_Zwj': 'GLUE_AFTER_ZWJ', 'E_Base_GAZ': 'E_BASE_GAZ'}
g = []
for l in open(src + 'GraphemeBreakProperty.txt'):
    l = l.split('#')[0].strip()
    if not l: continue
    r, v = [x.strip() for x in l.split(';')]
    a, _, b = r.partition('..')
    g.append('(%d,%d,G_%s)' % (int(a, 16), int(b or a, 16), NAME[v]))
out += ['(** GraphemeBreakProperty.txt: (first, last, value), in file order. *)',
        'Definition ucd_grapheme_break : list (Z * Z * gcb) := %s.' % wrap(g), '']
open(dst + 'UcdTables.v', 'w').write('\n'.join(out))
