#!/usr/bin/env python3
"""usage: gen_log.py results.jsonl ...    writes seeded/LOG.jsonl, one line per mutant.

Results of mechanical edits (with a field "st") come last.  Their builds stopped at the first failure, so only that one is
known, and what they break was not worked out one by one.  A build that ran out of time shows nothing."""
import sys, os, json
from mutants import MUTANTS
HERE = os.path.dirname(os.path.abspath(__file__))
# what was done about mutants that a claim did not notice
TIGHTENED = {
 'm029': ['C57_refuted and C57_sub_partial were added: no theorem was about subtraction from a balance'],
 'm092': ['C09_written_cost_partial was added: the theorems of C09 were about finalising only'],
 'm101': ['C09_written_cost_partial was added: the theorems of C09 were about finalising only'],
 'm105': ['C36_include_inlined_partial and C36_missing_ignored used the function under test; they now use names_file'],
 'm226': ['C73_lines was added: the theorems of C73 took the lines of a text from the function under test'],
 'm234': ['C12_prices_recorded and C77_prices used the constant of the model for midnight; they now write 00:00:00'],
 'm238': ['C03_product_commodity was added: which commodity a product has was only seen through costs'],
 'm239': ['C81_zero was added: nothing was said about zero amounts with a commodity'],
 'm255': ['C30_pool_consistent now covers symbols that are not there'],
 'm477': ['C10_not_a_number was added: C10_no_cost was about lines without a cost only'],
 'm127': ['C47_accepted_texts was added: nothing was said about texts of another form'],
}
CLAIMS = {t[0]: t[6] for t in MUTANTS}
SAME = {
 'dt_key': 'no claim: larger strides give the same order of dates and times',
 'bfs_loop': 'no claim: the paths of a search are never empty',
 'std_policy': 'no claim: the theorems are about every growth of capacities; this one is used in examples and counterexamples only, so no theorem checks its numbers',
 'acct_addr': 'no claim: the case of an account without a parent in memory, which no theorem is about',
 'o_parse_lines': 'no claim: the theorems are about every order',
 'find_option': 'no claim: every branch panics',
 'exchange_commodities': 'no claim: every branch panics',
}
rows, auto = {}, {}
for name in sys.argv[1:]:
    for l in open(name):
        r = json.loads(l)
        if 'error' in r: continue
        if 'st' in r: auto[r['i']] = r; continue
        key = (r.get('run', ''), r['id'])
        rows[key] = r
with open(os.path.join(HERE, '..', 'seeded', 'LOG.jsonl'), 'w') as f:
    for k in sorted(rows, key=lambda k: (k[1], k[0])):
        r = rows[k]
        f.write(json.dumps(dict(id=r['id'], definition=r['definition'], edit=r['edit'], breaks=r['breaks'], claims=CLAIMS.get(r['id'], r['claims']),
                                theorems_failed=sorted(r['dead']), lemmas_failed=len(r['failed_lemmas']),
                                theorems_tightened=TIGHTENED.get(r['id'], []))) + '\n')
    for i in sorted(auto):
        r = auto[i]
        st = 'timeout' if r['rc'] == 99 else r['st']
        first = '%s (%s)' % (r['lemma'].split()[1], r['where']) if r['lemma'] and st == 'killed' else None
        breaks = SAME.get(r['d'], 'not worked out') if st == 'survived' else 'nothing: the edit is not well-formed' if st == 'invalid' else 'not worked out'
        thm = [r['lemma'].split()[1]] if first and r['lemma'].startswith('Theorem C') else []
        f.write(json.dumps(dict(id='a%04d' % i, definition=r['d'], edit='%s.v, line %d: %s  ==>  %s' % (r['f'], r['line'], r['old'], r['new']), breaks=breaks, claims=[],
                                result=st, first_failure=first, theorems_failed=thm, theorems_tightened=[])) + '\n')
print(len(rows), len(auto))
