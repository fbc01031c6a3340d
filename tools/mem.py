import subprocess,sys,os,resource,time
for f in sys.argv[1:]:
    t=time.time()
    p=subprocess.Popen(['coqc','-q','-Q','theories','Verif','-o','/tmp/xx/%s.vo'%f,'theories/%s.v'%f],stdout=subprocess.DEVNULL)
    _,st,ru=os.wait4(p.pid,0)
    print(f,'%.1fs'%(time.time()-t),ru.ru_maxrss//1024,'MB',st,flush=True)
