.nia.cache
.lia.cache
.nra.cache
.csdp.cache
*.vo
*.vok
*.vos
*.glob
*.aux
.*.aux
Makefile*
.Makefile*
