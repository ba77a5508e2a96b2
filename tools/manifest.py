#!/usr/bin/env python3
"""Write MANIFEST.json: theorem names are collected from the property files."""
import glob, json, os, re

root = os.path.dirname(os.path.dirname(os.path.abspath(__file__)))
NOTES = {}
def claim(pid, status, note=''):
    NOTES[pid] = (status, note)

DUP = 'Histories follow the duplicate-pair discipline (DESIGN.md section 3), stated as [separable].'
claim('C01', 'proved', DUP)
claim('C02', 'proved')
claim('C03', 'proved', 'An exact pair query shows one of the links with that pair (C03_each_visits_one_of_pair), so the first theorem assumes at most one match there.')
claim('C04', 'proved', 'Proved without the assumption of distinct pairs.')
claim('C05', 'proved')
claim('C06', 'proved', 'The hypothesis is only that create succeeded.')
claim('C07', 'proved')
claim('C08', 'proved', DUP)
claim('C09', 'proved')
claim('C10', 'proved')
claim('C11', 'proved', DUP)
claim('C12', 'proved', DUP)
claim('C13', 'partial', 'False in full: a store with at least SIZE_STEP links cannot be read after reopening (C13_reopen_refuted). Proved below that size.')
claim('C14', 'partial', 'False for the single-memory store: the handler gets the new source and target as the old link (C14_update_before_refuted, and for every update C14_update_before_is_new).')
claim('C15', 'proved')
claim('C16', 'partial', 'False in full: fails on every store with a hole (C16_delete_all_holes, C16_delete_all_refuted). Proved for stores without holes.')
claim('C17', 'partial', 'False in full: fails whenever another link has i at both ends (C17_delete_usages_double, C17_delete_usages_refuted). Proved otherwise.')
claim('C18', 'partial', 'False in full: a usage with old at both ends keeps it as source (C18_rebase_refuted). Proved when there is none and redirecting makes no duplicate pairs (C18_rebase_partial). With such usages exactly they are left with old as source (C18_rebase_halves), unless another link holds old and new while one is being redirected.')
claim('C19', 'partial', 'False: Fuse never fuses (C19_fuse_passes_on for every handler and sequence of calls, C19_fuse_refuted for all four operations).')
claim('C20', 'proved')
claim('C21', 'proved')
claim('C22', 'proved')
claim('C23', 'proved')
claim('C24', 'proved')
claim('C33', 'partial', 'False for queries longer than three parts, which always panic. Proved for shorter ones.')
claim('C34', 'partial', 'False for 8- and 16-bit addresses, where opening panics. Proved whenever the step fits the address type.')
claim('C35', 'partial', 'False near the end of the address type (C35_create_until_full_refuted, and for every store C35_near_end_panics). Proved with room for one growth step.')
claim('C42', 'proved', DUP)
claim('C43', 'proved')
claim('C45', 'partial', 'Proved for the single-memory store.')
claim('C47', 'partial', 'False for delete and rebase_and_delete, which return 0. Proved for update and create. A store that never calls the handler makes the calls return 0 (silent_store).')
claim('C48', 'partial', 'False: such queries never visit anything (proved for all states).')
exec(open(os.path.join(root, 'tools', 'manifest_more.py')).read()) if os.path.exists(os.path.join(root, 'tools', 'manifest_more.py')) else None

names = {}
for f in sorted(glob.glob(os.path.join(root, 'rocq', 'theories', 'Prop*.v'))):
    for m in re.finditer(r'^Theorem ((C\d+)_\w+)', open(f).read(), re.M):
        names.setdefault(m.group(2), []).append(m.group(1))
ids = [json.loads(l)['id'] for l in open(os.path.join(root, 'properties.jsonl'))]
out = []
for pid in ids:
    if pid not in NOTES:
        print('no claim yet:', pid)
        continue
    st, note = NOTES[pid]
    if not names.get(pid):
        print('NO THEOREMS', pid)
    out.append({'property': pid, 'status': st, 'theorems': names.get(pid, []), 'note': note})
for pid in names:
    if pid not in NOTES:
        print('theorems without claim', pid)
json.dump({'claims': out}, open(os.path.join(root, 'MANIFEST.json'), 'w'), indent=1)
