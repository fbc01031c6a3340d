s=open('/verif/rocq/theories/PropYml.v').read()
i=s.index("Example C50_spelling"); 
open('/tmp/w/T.v','w').write(s[:i]+'''
Eval vm_compute in (let at_ es := (run exR 20 exSt (YDict (docOf es)) exS).2.2 in
  (at_ [("Place"%string, ent ["cuba.Class"]%string []); ("City"%string, ent ["city.place"]%string [])],
  at_ [("Place"%string, ent ["cuba.Class"]%string []); ("City"%string, ent ["city.Place"]%string [])],
  at_ [("Name"%string, ent ["cuba.attribute"]%string []);
       ("City"%string, ent ["cuba.Class"]%string [("attributes"%string, YDict [(SStr (lit "city.name"), YS Validator.SNone)])])])).
''')
