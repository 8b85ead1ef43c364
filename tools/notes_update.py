"""Merge notes (JSON object on stdin) into notes.json."""
import json, pathlib, sys
p = pathlib.Path(__file__).with_name("notes.json")
notes = json.loads(p.read_text())
for k, v in json.load(sys.stdin).items():
    notes[k] = v if isinstance(v, dict) else {"note": v}
p.write_text(json.dumps(dict(sorted(notes.items())), indent=1) + "\n")
