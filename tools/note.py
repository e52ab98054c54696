#!/usr/bin/env python3
"""tools/note.py Cxx status note...: set a note and regenerate MANIFEST.json."""
import json,os,sys,subprocess
root=os.path.dirname(os.path.dirname(os.path.abspath(__file__)))
p=root+'/tools/notes.json'
d=json.load(open(p))
d[sys.argv[1]]=[sys.argv[2],' '.join(sys.argv[3:])]
json.dump(d,open(p,'w'),indent=0,sort_keys=True)
subprocess.run([sys.executable,root+'/tools/manifest.py'],stdout=subprocess.DEVNULL,check=True)
