#!/usr/bin/env python3
"""logmut.py FILE.out ['{"index": ["tightened theorem", ...]}']: append the results of mutate.py to seeded/LOG.jsonl."""
import sys, json
t = json.loads(sys.argv[2]) if len(sys.argv) > 2 else {}
with open("/verif/seeded/LOG.jsonl", "a") as o:
    for i, l in enumerate(open(sys.argv[1])):
        d = json.loads(l)
        if "error" in d: continue
        o.write(json.dumps({"definition": d["file"] + ".v: " + d["def"], "edit": d["edit"], "breaks": d["claim"], "failed": d["theorems"],
          "failed_lemmas": d["lemmas"][:12], "failed_examples": d["examples"], "tightened": t.get(str(i), [])}) + "\n")
