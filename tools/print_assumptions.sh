#!/bin/sh
# Print Assumptions for every theorem named in MANIFEST.json (run after building rocq/).
cd "$(dirname "$0")/../rocq" || exit 1
T=$(mktemp -d)
python3 - "$T/Check.v" <<'P'
import json, sys
c = json.load(open('../MANIFEST.json'))['claims']
out = open(sys.argv[1], 'w')
import glob, os
out.write('From Verif Require Import %s.\n' % ' '.join(sorted(os.path.basename(f)[:-2] for f in glob.glob('theories/Properties*.v'))))
for x in c:
    for t in x['theorems']:
        out.write('Print Assumptions %s.\n' % t)
P
coqc -Q theories Verif "$T/Check.v"
rm -rf "$T"
