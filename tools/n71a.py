exec(open('/tmp/w/addnotes.py').read()); exec(open('/tmp/w/addprops.py').read())
add_props([],upd={"C02":{"statement":"Encoding a header either raises because a field does not fit its declared width, or yields a byte string of exactly the declared total width plus the UTF-8 bytes of the text at its end, if any, from which decoding returns the same fields (an empty text at the end is decoded as no text); a field is never silently cut.","why_tests_cant":"the boundary (256^width) moves with every width and field"}})
