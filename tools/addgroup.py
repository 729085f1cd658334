"""addgroup.py NAME TITLE FILES(comma) EXTRA_IMPORTS [coq libs] [scope]: register a Prop group and its files."""
import json, sys
name, title, files, imports, libs, scope = sys.argv[1:7]
g = json.load(open('/verif/tools/groups.json'))
g = [x for x in g if x['name'] != name]
hdr = [f"From Coq Require Import {libs}.", f"From Verif Require Import {imports}."]
if scope: hdr.append(f"Local Open Scope {scope}.")
g.append({"name": name, "title": title, "files": files.split(','), "header": hdr})
json.dump(g, open('/verif/tools/groups.json', 'w'), indent=1)
