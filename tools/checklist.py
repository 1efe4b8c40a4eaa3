#!/usr/bin/env python3
"""Every file under theories/ is listed in _CoqProject, and every theorem of MANIFEST.json is in a listed file."""
import glob, json, os, re, sys
R='/verif/rocq/'
L=[l.strip() for l in open(R+'_CoqProject') if l.startswith('theories/')]
bad=['unlisted '+f for f in glob.glob(R+'theories/*.v') if 'theories/'+os.path.basename(f) not in L]
names=set()
for f in L: names|=set(re.findall(r"(?:Theorem|Lemma|Corollary)\s+([\w']+)",open(R+f).read()))
for c in json.load(open('/verif/MANIFEST.json'))['claims']:
    bad+=['missing %s %s'%(c['property'],t) for t in c['theorems'] if t.split('.')[-1] not in names]
print('\n'.join(bad) or 'ok'); sys.exit(bool(bad))
