*.vo
*.vos
*.vok
*.glob
*.aux
.*.aux
Makefile
Makefile.conf
.Makefile.d
*.d
.lia.cache
.nia.cache
.nra.cache
.csdp.cache
