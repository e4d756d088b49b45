"""addprop.py FILE: FILE is JSON {"prop":{...}, "theorems":[...], "note":"", "row":"| .. |", "findings":"text"}; appends to the lists."""
import json,sys
d=json.load(open(sys.argv[1]))
open('/verif/properties.jsonl','a').write(json.dumps(d["prop"])+"\n")
p='/verif/tools/manifest.py'; s=open(p).read(); i=s.index('\n]\njson.dump')
s=s[:i]+"\n("+",".join([json.dumps(d["prop"]["id"]),json.dumps(d.get("status","proved")),json.dumps(d["theorems"]),json.dumps(d.get("note",""))])+"),"+s[i:]
open(p,'w').write(s)
p='/verif/DESIGN.md'; s=open(p).read()
k="| C71 | `TypeFromString`"
s=s.replace(k,d["row"]+"\n"+k)
if d.get("findings"): s=s.rstrip()+"\n"+d["findings"]+"\n"
open(p,'w').write(s)
