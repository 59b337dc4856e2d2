#!/usr/bin/env python3
# Writes rocq/theories/DasRules.v: the text of dasRulesJSONString in
# /repo/pkg/mutator/dasrules.go, verbatim, cut into pieces of at most 8 lines.
src=open('/repo/pkg/mutator/dasrules.go').read()
a=src.index('`')+1; b=src.rindex('`')
text=src[a:b]
assert text.isascii() and '`' not in text
lines=text.splitlines(keepends=True)
first=src[:a].count('\n')+1
last=src[:b].count('\n')+1
pieces=[''.join(lines[i:i+8]) for i in range(0,len(lines),8)]
assert ''.join(pieces)==text
with open('/verif/rocq/theories/DasRules.v','w') as f:
    f.write("""(** * The rule list of pkg/mutator/dasrules.go.

    Generated by tools/gen_dasrules.py: the contents of the raw string literal
    dasRulesJSONString (dasrules.go:%d-%d), byte for byte, in pieces. *)
From Verif Require Import Base.

"""%(first,last))
    f.write("Definition dasRulesPieces : list string := [\n")
    f.write(';\n'.join('"'+p.replace('"','""')+'"' for p in pieces))
    f.write("]%string.\n\n")
    f.write("(** dasrules.go:%d-%d *)\nDefinition dasRulesJSONString : bytes := concat (map str dasRulesPieces).\n"%(first,last))
print(len(pieces),first,last,len(text))
