#!/usr/bin/env python3
"""append the results of a mutation batch (F.out.jsonl) to seeded/LOG.jsonl.
log.py F.out.jsonl [tight.json]   tight.json: {"definition|edit": {"tightened":[..],"note":".."}}"""
import sys,json
t=json.load(open(sys.argv[2])) if len(sys.argv)>2 else {}
with open('/verif/seeded/LOG.jsonl','a') as f:
    for l in open(sys.argv[1]):
        r=json.loads(l)
        if r.get('error'): continue
        x=t.get(r['definition']+'|'+r['edit'],{})
        f.write(json.dumps({'definition':f"{r['file']}.v: {r['definition']}",'edit':r['edit'],'replace':r['old'],'by':r['new'],
          'claim_broken':x.get('claim',r['claim']),'theorems_failed':r['theorems_failed']+x.get('extra_failed',[]),'failed_proofs':r['failed_proofs'][:12],
          'theorems_tightened':x.get('tightened',[]),'note':x.get('note','')})+'\n')
