*.vo
*.vok
*.vos
*.glob
*.aux
.*.aux
.lia.cache
.nia.cache
.nra.cache
.csdp.cache
.Makefile.d
Makefile
Makefile.conf
.CoqMakefile.d
