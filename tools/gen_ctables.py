# prints rocq/theories/CTables.v from the text of vrfy.c
import re
s = open("/repo/falcon/nistfalcon/src/vrfy.c").read().split("\n")
print('(** The constant tables of falcon/nistfalcon/src/vrfy.c, generated from its text by tools/gen_ctables.py. *)\nFrom Coq Require Import ZArith List.\nImport ListNotations.\nOpen Scope Z_scope.')
for name in ("GMb", "iGMb"):
    i = next(k for k, l in enumerate(s) if l.startswith("static const uint16_t %s[]" % name))
    j = next(k for k in range(i, len(s)) if "};" in s[k])
    body = re.sub(r"/\*.*?\*/|//[^\n]*", "", "\n".join(s[i:j + 1]), flags=re.S)
    body = body[body.index("{"):body.index("}")]
    v = re.findall(r"\d+", body)
    assert len(v) == 1024
    rows = ["; ".join(v[k:k + 32]) for k in range(0, 1024, 32)]
    print("(** vrfy.c:%d-%d *)\nDefinition %s : list Z :=\n  [%s]." % (i + 1, j + 1, name, ";\n   ".join(rows)))
