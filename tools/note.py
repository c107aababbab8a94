"""tools/note.py Cxx 'text': set the manifest note of a property."""
import json, sys
p = "/verif/tools/notes.json"
d = json.load(open(p))
for k, v in zip(sys.argv[1::2], sys.argv[2::2]):
    d[k] = v
json.dump(dict(sorted(d.items())), open(p, "w"), indent=1, ensure_ascii=False)
