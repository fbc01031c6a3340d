p='/verif/rocq/theories/YmlProofs.v'
s=open(p).read()
s=s.replace("[done|]. cbn. by rewrite IH, <- app_assoc. Qed.","[done|].\n  change (x ++ mjoin (l1 ++ l2) = (x ++ mjoin l1) ++ mjoin l2). by rewrite IH, app_assoc. Qed.")
open(p,'w').write(s)
