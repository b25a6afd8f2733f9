#!/usr/bin/env python3
"""For each finished mutation: is a theorem of the claimed property among those that failed?"""
import json, glob, re
for f in sorted(glob.glob('/tmp/mut/*.json')):
    d = json.load(open(f))
    if isinstance(d, list): continue
    fails = d['failed_directly'] + d['failed_via']
    ids = re.findall(r'C\d\d+', d['claim'])
    miss = [i for i in ids if not any(x.startswith(i) for x in fails)]
    if miss or not fails: print(d['id'], 'MISSING', miss, '|', d['claim'], '| failed:', fails[:8])
