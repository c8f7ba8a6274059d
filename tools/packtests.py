#!/usr/bin/env python3
"""Writes rocq/theories/MPackTests.v: every case of /repo/test/pack.cpp as a computation in the model."""
import re
src = open('/repo/test/pack.cpp').read()
E = {'big_octet_big_bit':'BOBB','little_octet_big_bit':'LOBB','big_octet_little_bit':'BOLB','little_octet_little_bit':'LOLB'}
out = ['''(** * Every case of test/pack.cpp, evaluated in the model of pack

    Generated by tools/packtests.py.  The few cases with 4-bit chunks are left out: the model covers
    whole octets only.  These are tests of the transcription, not theorems about
    all inputs. *)
From Coq Require Import NArith List.
From Verif Require Import SpecStream MPack.
Import ListNotations.
''']
n = 0; skipped = []
for m in re.finditer(r'BOOST_AUTO_TEST_CASE\((\w+)\)\s*\{(.*?)\n\}', src, re.S):
    name, body = m.groups()
    line = src[:m.start()].count('\n') + 1
    arr = {v: [x.strip() for x in vals.split(',') if x.strip()] for v, vals in
           re.findall(r'(?:std::array|std::vector|std::list|std::deque)<[^;{]*>\s+(\w+)\s*=\s*[\{\s]+([^}]*)\}', body)}
    if 'out == in' in body: arr['res'] = arr.get('in')
    p = re.search(r'pack<\s*([^>]*?)>\s*\(', body, re.S)
    if not p or 'res' not in arr or 'in' not in arr:
        skipped.append((name, line)); continue
    a = [re.sub(r'.*::', '', x.strip()) for x in p.group(1).split(',')]
    if len(a) < 4 or a[0] not in E or a[1] not in E or not (a[2].isdigit() and a[3].isdigit()):
        skipped.append((name, line, a)); continue
    if int(a[2]) % 8 or int(a[3]) % 8:
        skipped.append((name, line, a)); continue
    f = lambda l: '[' + '; '.join(x.rstrip('ULul') for x in l) + ']%N'
    out.append(f'(** test/pack.cpp:{line}. *)\nExample l{line}_{name} : pack {E[a[0]]} {E[a[1]]} {a[2]} {a[3]} {f(arr["in"])} = {f(arr["res"])}.\nProof. vm_compute. reflexivity. Qed.\n')
    n += 1
open('/verif/rocq/theories/MPackTests.v', 'w').write('\n'.join(out))
print(n, 'cases;', len(skipped), 'skipped:', skipped)
