exec(open('/tmp/w/addnotes.py').read()); exec(open('/tmp/w/addprops.py').read())
add_props([dict(id="C77",title="The dummy simulation simulates the persons it was given",
statement="In a session of the dummy simulation whose wrapper has one city: whatever the user did before the first run, after any number of runs, with reads of any objects between them or none, every person that was a part of the wrapper at the first run is seen exactly t years older, where t is the number of steps of all runs, and is a citizen and inhabitant of the city (no longer a part of the wrapper) iff fewer than t participants are ahead of it, i.e. have a smaller name or the same name and were added earlier; all other persons are unchanged. All these runs succeed. Once the simulation has run, adding a part of the wrapper, changing or deleting a person, or changing the number of steps makes this and every later run raise RuntimeError without any effect on the simulation.",
quantifier="all histories of additions, changes, deletions, reads and runs; all names, ages and numbers of steps (also negative)",
why_tests_cant="objects are loaded lazily, so every set of reads between the runs is a different execution",
anchors=["osp/wrappers/simdummy/simdummy_session.py: SimDummySession","osp/wrappers/simdummy/dummy_syntactic_layer.py: DummySyntacticLayer","osp/core/session/sim_wrapper_session.py: SimWrapperSession.run"])])
save({"C77":("proved","Dummy.v: the engine, the map of persons and the session restricted to its persons (name, age, part of the wrapper, citizen); exactly one city, as the code asserts (without one, reading a person that moved raises IndexError). C77_simulation, C77_runs_succeed, C77_no_changes_after_start; the generic session underneath is C58.")})
p='/verif/DESIGN.md';s=open(p).read()
row="| C77 | Dummy.v: engine + lazily loaded view of the persons; stable sort computed by rank; invariant over histories of reads and runs; PropDummy.v. |\n"
i=s.index("\n## Trusted base")
s=s[:i].rstrip("\n")+"\n"+row+s[i:]
open(p,'w').write(s)
