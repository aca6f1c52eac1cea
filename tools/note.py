"""usage: note.py C09 "text" [status]  -- record the manifest note of a property"""
import json,sys
p='/verif/tools/notes.json'
n=json.load(open(p))
n[sys.argv[1]]={'note':sys.argv[2]}
if len(sys.argv)>3: n[sys.argv[1]]['status']=sys.argv[3]
json.dump(dict(sorted(n.items())),open(p,'w'),indent=1)
